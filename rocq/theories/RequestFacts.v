(** Lemmas about request parsing. *)
From Verif Require Export SpecRequest BytesFacts FrameFacts.

(** ** Case *)
Lemma same_letter_lower x y : same_letter x y -> lower_byte x = lower_byte y.
Proof.
  assert (K : forall x y, (65 <= Byte.to_N x <= 90)%N -> (Byte.to_N y = Byte.to_N x + 32)%N -> lower_byte x = lower_byte y).
  { intros a b H1 H2. unfold lower_byte. rewrite (proj2 (N.leb_le 65 (Byte.to_N a))) by lia.
    rewrite (proj2 (N.leb_le (Byte.to_N a) 90)) by lia. cbn [andb].
    replace (Byte.to_N b <=? 90)%N with false by lia. rewrite andb_false_r.
    rewrite <- H2. apply byte_of_N_to_N. }
  intros [->|[[H1 H2]|[H1 H2]]]; [done| |symmetry]; by apply K.
Qed.
Lemma same_text_lower s t : same_text s t -> lower s = lower t.
Proof. induction 1 as [|x y s t H _ IH]; [done|]. unfold lower in *. cbn [map]. by rewrite IH, (same_letter_lower x y H). Qed.
Lemma lower_in_range lo hi b : (lo = 0 /\ hi = 127)%N \/ (128 <= lo)%N ->
  in_range lo hi (lower_byte b) = in_range lo hi b.
Proof.
  intros H. unfold lower_byte. destruct (_ && _) eqn:E; [|done]. apply andb_true_iff in E as [E1 E2].
  apply N.leb_le in E1, E2. unfold in_range. rewrite to_N_byte_of_N.
  rewrite N.mod_small by lia. lia.
Qed.
Lemma cont_lower b : cont (lower_byte b) = cont b.
Proof. unfold cont. apply lower_in_range. lia. Qed.
Lemma utf8_lower t : utf8_valid (lower t) = utf8_valid t.
Proof.
  assert (H : forall n t, (length t <= n)%nat -> utf8_valid (lower t) = utf8_valid t); [|by apply (H (length t))].
  induction n as [|n IH]; intros [|a t1] L; try done; [cbn in L; lia|].
  cbn in L. unfold lower in *. cbn [map utf8_valid].
  rewrite lower_in_range by lia. destruct (in_range 0 127 a); [apply IH; lia|].
  destruct t1 as [|b t2]; [done|]. cbn in L. cbn [map].
  rewrite (lower_in_range 194 223) by lia. rewrite cont_lower. rewrite (IH t2) by lia.
  destruct (in_range 194 223 a); [done|].
  destruct t2 as [|c t3]; [done|]. cbn in L. cbn [map].
  rewrite ?lower_in_range by lia. rewrite ?cont_lower. rewrite (IH t3) by lia.
  destruct (in_range 224 224 a); [done|]. destruct (in_range 237 237 a); [done|]. destruct (in_range 225 239 a); [done|].
  destruct t3 as [|d t4]; [done|]. cbn in L. cbn [map].
  rewrite ?lower_in_range by lia. rewrite ?cont_lower. by rewrite (IH t4) by lia.
Qed.
Lemma utf8_same s t : same_text s t -> utf8_valid s = utf8_valid t.
Proof. intros H. rewrite <- (utf8_lower s), <- (utf8_lower t). by rewrite (same_text_lower s t H). Qed.

(** The Kelvin sign *)
Definition ascii_text (w : bytes) : bool := forallb (fun b => (Byte.to_N b <? 128)%N) w.
Lemma kelvin_cons x b : x <> xe2 -> kelvin (x :: b) = x :: kelvin b.
Proof. by destruct x. Qed.
Lemma kelvin_cases x b : (exists t, x = xe2 /\ b = x84 :: xaa :: t /\ kelvin (x :: b) = x6b :: kelvin t) \/ kelvin (x :: b) = x :: kelvin b.
Proof.
  destruct (decide (x = xe2)) as [->|N]; [|right; by apply kelvin_cons].
  destruct b as [|y b]; [by right|]. destruct (decide (y = x84)) as [->|N]; [|right; by destruct y].
  destruct b as [|z b]; [by right|]. destruct (decide (z = xaa)) as [->|N]; [|right; by destruct z]. left. by exists b.
Qed.
Lemma same_letter_ascii x y : same_letter x y -> (Byte.to_N y < 128)%N -> (Byte.to_N x < 128)%N.
Proof. intros [->|[[H1 H2]|[H1 H2]]]; lia. Qed.
Lemma lowercase_word b w : same_word b w -> ascii_text w = true -> utf8_valid b = true /\ lowercase b = lower w.
Proof.
  unfold lowercase. induction 1 as [|x y b w L _ IH|b w _ IH]; cbn [ascii_text forallb]; [done| |]; rewrite andb_true_iff; intros [A1 A2].
  - destruct (IH A2) as [U E]. apply N.ltb_lt in A1. pose proof (same_letter_ascii x y L A1) as A.
    assert (N : x <> xe2) by (intros ->; by vm_compute in A). rewrite (kelvin_cons x b N). unfold lower in *. cbn [map]. rewrite E, (same_letter_lower x y L). split; [|done].
    cbn [utf8_valid]. replace (in_range 0 127 x) with true; [done|]. unfold in_range. symmetry. apply andb_true_iff. split; apply N.leb_le; lia.
  - destruct (IH A2) as [U E]. cbn [kelvin]. unfold lower in *. cbn [map]. rewrite E. split; [|done].
    change (utf8_valid (xe2 :: x84 :: xaa :: b)) with (utf8_valid b). done.
Qed.
Lemma word_tag w f : is_word w f -> ascii_text w = true -> as_tag f = Some (lower w).
Proof.
  intros (b & [->| ->] & S) U; unfold as_tag, as_str; destruct (lowercase_word b w S U) as [-> E]; cbn [option_map]; by rewrite E.
Qed.
(** Texts of the same letters have the same lower case, whatever else is in them. *)
Lemma same_letter_other x y : same_letter x y -> (128 <= Byte.to_N x)%N -> x = y.
Proof. intros [->|[[H1 H2]|[H1 H2]]] H; [done|lia|lia]. Qed.
Lemma same_letter_other' x y : same_letter x y -> (128 <= Byte.to_N y)%N -> x = y.
Proof. intros [->|[[H1 H2]|[H1 H2]]] H; [done|lia|lia]. Qed.
Lemma lowercase_same s t : same_text s t -> lowercase s = lowercase t.
Proof.
  intros H. apply same_text_lower. revert t H.
  assert (G : forall n s t, length s <= n -> same_text s t -> same_text (kelvin s) (kelvin t)); [|intros t H; by apply (G (length s))].
  induction n as [|n IH]; intros s' t L H; destruct H as [|x y s1 t1 X H]; [constructor|cbn in L; lia|constructor|]. cbn in L.
  destruct (kelvin_cases x s1) as [(u & -> & -> & E)|E]; rewrite E.
  - apply same_letter_other in X as <-; [|by vm_compute]. inversion H as [|? b2 ? t2 X2 H2]; subst. apply same_letter_other in X2 as <-; [|by vm_compute].
    inversion H2 as [|? b3 ? t3 X3 H3]; subst. apply same_letter_other in X3 as <-; [|by vm_compute]. cbn [kelvin]. constructor; [by left|]. apply IH; [cbn in L; lia|done].
  - destruct (kelvin_cases y t1) as [(u & -> & -> & E2)|E2]; rewrite E2; [|constructor; [done|apply IH; [lia|done]]].
    exfalso. assert (x = xe2) as -> by (by apply same_letter_other'; [done|vm_compute]).
    inversion H as [|b2 ? s2 ? X2 H2]; subst. inversion H2 as [|b3 ? s3 ? X3 H3]; subst.
    assert (b2 = x84) as -> by (by apply same_letter_other'; [done|vm_compute]).
    assert (b3 = xaa) as -> by (by apply same_letter_other'; [done|vm_compute]).
    cbn [kelvin] in E. discriminate E.
Qed.
Lemma number_int z f : is_number z f -> (- 2 ^ 63 <= z < 2 ^ 63)%Z -> as_int f = Some z.
Proof.
  assert (A : (- 2 ^ 63 <= z < 2 ^ 63)%Z -> atoi_i64 (show_Z z) = Some z).
  { intros H. rewrite <- (app_nil_r (show_Z z)), atoi_show_Z; [done| |done].
    unfold is_i64, i64_min, i64_max, z_two63. lia. }
  intros [->|[->| ->]] H; cbn; auto.
Qed.
Lemma number_u64 n f : is_number (Z.of_N n) f -> (n < 2 ^ 63)%N -> as_u64 f = Some n.
Proof.
  intros H L. unfold as_u64. rewrite (number_int _ _ H) by lia. cbn. f_equal. unfold i64_as_u64, z_two64.
  rewrite Z.mod_small by lia. lia.
Qed.

(** ** The option loop *)
Definition shrinks {A} (p : qparser A) : Prop := forall c a c', p c = QOk a c' -> (length c' <= length c)%nat.
Lemma shrinks_ret {A} (a : A) : shrinks (qret a).
Proof. intros c b c' H. injection H as <- <-. lia. Qed.
Lemma shrinks_next {A} (conv : frame -> option A) : shrinks (next conv).
Proof. intros [|f c] a c'; cbn; [done|]. destruct (conv f); [|done]. intros H. injection H as <- <-. lia. Qed.
Lemma shrinks_bind {A B} (p : qparser A) (g : A -> qparser B) : shrinks p -> (forall a, shrinks (g a)) -> shrinks (qbind p g).
Proof.
  intros P G c b c'. unfold qbind. destruct (p c) as [a c1| |] eqn:E; [|done|done].
  intros H. apply P in E. apply G in H. lia.
Qed.
Lemma shrinks_map {A B} (f : A -> B) p : shrinks p -> shrinks (qmap f p).
Proof. intros H. apply shrinks_bind; [done|]. intros a. apply shrinks_ret. Qed.

Lemma options_fuel {S} (step : bytes -> S -> option (qparser S)) : (forall t s p, step t s = Some p -> shrinks p) ->
  forall f1 f2 s c, (length c <= f1)%nat -> (length c <= f2)%nat -> options f1 step s c = options f2 step s c.
Proof.
  intros P. induction f1 as [|f1 IH]; intros f2 s c L1 L2.
  - destruct c; [|cbn in L1; lia]. by destruct f2.
  - destruct c as [|f c]; [by destruct f2|]. destruct f2 as [|f2]; [cbn in L2; lia|]. cbn in L1, L2. cbn [options].
    destruct (as_tag f) as [t|]; [|done]. destruct (step t s) as [p|] eqn:E; [|done].
    destruct (p c) as [s' c'| |] eqn:E2; [|done|done]. apply (P _ _ _ E) in E2. apply IH; lia.
Qed.

(** A list of options, each spelled by some frames and with a known effect, is read as the fold of the effects. *)
Lemma options_fold {S O} (step : bytes -> S -> option (qparser S)) (sp : O -> list frame -> Prop) (eff : S -> O -> S) :
  (forall t s p, step t s = Some p -> shrinks p) ->
  (forall o fs s c, sp o fs -> exists f fs' t p, fs = f :: fs' /\ as_tag f = Some t /\ step t s = Some p /\ p (fs' ++ c) = QOk (eff s o) c) ->
  forall os fss s c r, Forall2 sp os fss -> optional step (fold_left eff os s) c = r ->
  optional step s (concat fss ++ c) = r.
Proof.
  intros P H os fss s c r F E. revert s E; induction F as [|o fs os fss Ho _ IH]; intros s E; [done|].
  cbn [concat]. rewrite <- app_assoc. destruct (H o fs s (concat fss ++ c) Ho) as (f & fs' & t & p & -> & T & St & Pp).
  unfold optional. cbn [app length options]. rewrite T, St, Pp.
  rewrite (options_fuel step P _ (length (concat fss ++ c))); [|rewrite !app_length; lia|lia].
  apply IH, E.
Qed.

(** What an accepted option list looks like: known options and at most one further frame, which is dropped. *)
Inductive opt_list {S} (step : bytes -> S -> option (qparser S)) : S -> list frame -> S -> option frame -> Prop :=
  | ol_end s : opt_list step s [] s None
  | ol_junk s f : (forall t, as_tag f = Some t -> step t s = None) -> opt_list step s [f] s (Some f)
  | ol_opt s f t p fs c s' s'' j : as_tag f = Some t -> step t s = Some p -> p (fs ++ c) = QOk s' c ->
      opt_list step s' c s'' j -> opt_list step s (f :: fs ++ c) s'' j.
Definition suffixing {A} (p : qparser A) : Prop := forall c a c', p c = QOk a c' -> exists fs, c = fs ++ c'.
Lemma suffixing_ret {A} (a : A) : suffixing (qret a).
Proof. intros c b c' H. injection H as <- <-. by exists []. Qed.
Lemma suffixing_next {A} (conv : frame -> option A) : suffixing (next conv).
Proof. intros [|f c] a c'; cbn; [done|]. destruct (conv f); [|done]. intros H. injection H as <- <-. by exists [f]. Qed.
Lemma suffixing_bind {A B} (p : qparser A) (g : A -> qparser B) : suffixing p -> (forall a, suffixing (g a)) -> suffixing (qbind p g).
Proof.
  intros P G c b c'. unfold qbind. destruct (p c) as [a c1| |] eqn:E; [|done|done].
  intros H. apply P in E as [f1 ->]. apply G in H as [f2 ->]. exists (f1 ++ f2). by rewrite app_assoc.
Qed.
Lemma suffixing_shrinks {A} (p : qparser A) : suffixing p -> shrinks p.
Proof. intros H c a c' E. apply H in E as [fs ->]. rewrite app_length. lia. Qed.
Lemma options_accepts {S} (step : bytes -> S -> option (qparser S)) : (forall t s p, step t s = Some p -> suffixing p) ->
  forall fuel s c s' j, options fuel step s c = QOk (s', j) [] -> opt_list step s c s' j.
Proof.
  intros P. induction fuel as [|fuel IH]; intros s c s' j; destruct c as [|f c]; cbn [options];
    try (intros H; injection H as <- <-; constructor).
  - destruct (as_tag f) as [t|] eqn:T.
    + destruct (step t s) eqn:E; [done|]. intros H. injection H as <- <- ->. constructor. intros t' T'. congruence.
    + intros H. injection H as <- <- ->. constructor. intros t' T'. congruence.
  - destruct (as_tag f) as [t|] eqn:T.
    + destruct (step t s) as [p|] eqn:E.
      * destruct (p c) as [s1 c1| |] eqn:E2; [|done|done]. intros H. apply IH in H.
        destruct (P _ _ _ E _ _ _ E2) as [fs ->]. by eapply ol_opt.
      * intros H. injection H as <- <- ->. constructor. intros t' T'. congruence.
    + intros H. injection H as <- <- ->. constructor. intros t' T'. congruence.
Qed.

(** *** The steps of the commands *)
Ltac step_parser :=
  repeat match goal with
  | H : match ?x with _ => _ end = Some _ |- _ => destruct x eqn:?; try discriminate
  | H : Some _ = Some _ |- _ => injection H as <-
  end.
Ltac suff := repeat first [apply suffixing_ret | apply suffixing_next | apply suffixing_bind; [|intros ?]].
Lemma opt_expires_suff t p : opt_expires t = Some p -> suffixing p.
Proof. unfold opt_expires. intros H. step_parser; unfold qmap; suff. Qed.
Lemma opt_limit_suff t p : opt_limit t = Some p -> suffixing p.
Proof. unfold opt_limit. intros H. step_parser; suff. Qed.
Lemma opt_u64_suff n t p : opt_u64 n t = Some p -> suffixing p.
Proof. unfold opt_u64. intros H. step_parser; unfold qmap; suff. Qed.
Lemma set_step_suff t s p : set_step t s = Some p -> suffixing p.
Proof.
  unfold set_step. destruct (opt_expires t) as [q|] eqn:E.
  - intros H. injection H as <-. apply suffixing_bind; [by eapply opt_expires_suff|]. intros a. apply suffixing_ret.
  - intros H. step_parser; suff.
Qed.
Lemma ex_step_suff t s p : ex_step t s = Some p -> suffixing p.
Proof. unfold ex_step. intros H. step_parser; suff. Qed.
Lemma zadd_step_suff t s p : zadd_step t s = Some p -> suffixing p.
Proof. unfold zadd_step. intros H. step_parser; suff. Qed.
Lemma limit_step_suff t s p : limit_step t s = Some p -> suffixing p.
Proof. apply opt_limit_suff. Qed.
Lemma scores_step_suff t s p : scores_step t s = Some p -> suffixing p.
Proof.
  unfold scores_step. destruct (opt_flag _ _); [intros H; injection H as <-; suff|].
  destruct (opt_limit t) as [q|] eqn:E; [|done]. intros H. injection H as <-.
  apply suffixing_bind; [by eapply opt_limit_suff|]. intros a. suff.
Qed.
Lemma flag_step_suff n t s p : flag_step n t s = Some p -> suffixing p.
Proof. unfold flag_step. intros H. step_parser; suff. Qed.
Lemma zrange_step_suff t s p : zrange_step t s = Some p -> suffixing p.
Proof.
  unfold zrange_step. destruct (opt_order t); [intros H; injection H as <-; suff|].
  destruct (opt_flag _ _); [intros H; injection H as <-; suff|].
  destruct (opt_limit t) as [q|] eqn:E.
  - intros H. injection H as <-. apply suffixing_bind; [by eapply opt_limit_suff|]. intros a. suff.
  - intros H. step_parser; suff.
Qed.
Lemma restore_step_suff t s p : restore_step t s = Some p -> suffixing p.
Proof.
  unfold restore_step. destruct (opt_flag _ _); [intros H; injection H as <-; suff|].
  destruct (opt_flag _ _); [intros H; injection H as <-; suff|].
  destruct (opt_u64 (bs "idletime") t) as [q|] eqn:E.
  { intros H. injection H as <-. apply suffixing_bind; [by eapply opt_u64_suff|]. intros a. suff. }
  destruct (opt_u64 (bs "freq") t) as [q|] eqn:E2; [|done].
  intros H. injection H as <-. apply suffixing_bind; [by eapply opt_u64_suff|]. intros a. suff.
Qed.

(** ** SET *)
Definition set_eff (s : set_opts) (o : sopt) : set_opts :=
  SetOpts (match expires_of o with Some e => e | None => so_expires s end)
          (match nx_of o with Some e => e | None => so_nx s end)
          (so_get s || bool_decide (o = OGet)).
Lemma set_spells o fs s c : spells o fs ->
  exists f fs' t p, fs = f :: fs' /\ as_tag f = Some t /\ set_step t s = Some p /\ p (fs' ++ c) = QOk (set_eff s o) c.
Proof.
  intros H. destruct H as [n f g Hw Hn L|n f g Hw Hn L|n f g Hw Hn L|n f g Hw Hn L|f Hw|f Hw|f Hw|f Hw];
    (pose proof (word_tag _ _ Hw eq_refl) as T; eexists f, _, _, _; split; [reflexivity|]; split; [exact T|]; split; [reflexivity|]).
  1-4: unfold qmap, qbind; cbn [app next]; rewrite (number_u64 _ _ Hn L); unfold qret, set_eff; cbn; by rewrite orb_false_r.
  all: unfold qmap, qbind; cbn [app]; unfold qret, set_eff; cbn; by rewrite ?orb_false_r, ?orb_true_r.
Qed.
Lemma set_eff_meaning os s : fold_left set_eff os s =
  SetOpts (last_some expires_of (so_expires s) os) (last_some nx_of (so_nx s) os) (so_get s || bool_decide (OGet ∈ os)).
Proof.
  revert s; induction os as [|o os IH]; intros s.
  - cbn. rewrite orb_false_r. by destruct s.
  - cbn [fold_left last_some]. rewrite IH. unfold set_eff; cbn [so_expires so_nx so_get]. f_equal.
    rewrite <- orb_assoc. f_equal.
    destruct (bool_decide_reflect (o = OGet)) as [->|N]; cbn [orb].
    + symmetry. apply bool_decide_true. by left.
    + apply bool_decide_ext. rewrite elem_of_cons. naive_solver.
Qed.
Lemma set_trailing os fss : Forall2 spells os fss ->
  trailing set_step (SetOpts ExNone NxXx_None false) (concat fss) = QOk (set_meaning os) [].
Proof.
  intros H. unfold trailing, qbind. rewrite <- (app_nil_r (concat fss)).
  rewrite (options_fold set_step spells set_eff (fun t s p E => suffixing_shrinks _ (set_step_suff t s p E))
    (fun o fs s c => set_spells o fs s c) os fss _ [] (QOk (fold_left set_eff os (SetOpts ExNone NxXx_None false), None) [])); [|done|done].
  unfold qret. cbn [fst]. by rewrite set_eff_meaning.
Qed.

(** ** EXPIRE and friends *)
Definition ex_eff (s : ex_opts) (o : eopt) : ex_opts :=
  ExOpts (match enx_of o with Some e => e | None => eo_nx s end) (match egl_of o with Some e => e | None => eo_gl s end).
Lemma ex_spells o fs s c : espells o fs ->
  exists f fs' t p, fs = f :: fs' /\ as_tag f = Some t /\ ex_step t s = Some p /\ p (fs' ++ c) = QOk (ex_eff s o) c.
Proof.
  intros H. destruct H as [f Hw|f Hw|f Hw|f Hw];
    (pose proof (word_tag _ _ Hw eq_refl) as T; eexists f, _, _, _; split; [reflexivity|]; split; [exact T|]; split; [reflexivity|]); done.
Qed.
Lemma ex_eff_meaning os s : fold_left ex_eff os s = ExOpts (last_some enx_of (eo_nx s) os) (last_some egl_of (eo_gl s) os).
Proof. revert s; induction os as [|o os IH]; intros s; [by destruct s|]. cbn [fold_left last_some]. by rewrite IH. Qed.
Lemma ex_trailing os fss : Forall2 espells os fss ->
  trailing ex_step (ExOpts NxXx_None GtLt_None) (concat fss) = QOk (ExOpts (last_some enx_of NxXx_None os) (last_some egl_of GtLt_None os)) [].
Proof.
  intros H. unfold trailing, qbind. rewrite <- (app_nil_r (concat fss)).
  rewrite (options_fold ex_step espells ex_eff (fun t s p E => suffixing_shrinks _ (ex_step_suff t s p E))
    (fun o fs s c => ex_spells o fs s c) os fss _ [] (QOk (fold_left ex_eff os (ExOpts NxXx_None GtLt_None), None) [])); [|done|done].
  unfold qret. cbn [fst]. by rewrite ex_eff_meaning.
Qed.

(** ** ZRANGE *)
Definition zr_eff (s : range_opts) (o : ropt) : range_opts :=
  RangeOpts (match order_of o with Some e => e | None => ro_order s end)
    (ro_rev s || bool_decide (o = RRev)) (match limit_of o with Some e => e | None => ro_limit s end)
    (ro_scores s || bool_decide (o = RWithscores)).
Lemma zr_spells o fs s c : rspells o fs ->
  exists f fs' t p, fs = f :: fs' /\ as_tag f = Some t /\ zrange_step t s = Some p /\ p (fs' ++ c) = QOk (zr_eff s o) c.
Proof.
  intros H. destruct H as [f Hw|f Hw|f Hw|a b f g h Hw Ha Hb La Lb|f Hw];
    (pose proof (word_tag _ _ Hw eq_refl) as T; eexists f, _, _, _; split; [reflexivity|]; split; [exact T|]; split; [reflexivity|]).
  4: { unfold qmap, qbind. cbn [app next]. rewrite (number_int _ _ Ha La). cbn [next]. rewrite (number_int _ _ Hb Lb). unfold qret, zr_eff; cbn.
       by rewrite !orb_false_r. }
  all: cbn [app]; unfold qret, zr_eff; cbn; by rewrite ?orb_false_r, ?orb_true_r.
Qed.
Lemma zr_eff_meaning os s : fold_left zr_eff os s =
  RangeOpts (last_some order_of (ro_order s) os) (ro_rev s || bool_decide (RRev ∈ os))
    (last_some limit_of (ro_limit s) os) (ro_scores s || bool_decide (RWithscores ∈ os)).
Proof.
  assert (K : forall (o x : ropt) os, bool_decide (o = x) || bool_decide (x ∈ os) = bool_decide (x ∈ o :: os)).
  { intros o x os'. destruct (bool_decide_reflect (o = x)) as [->|N]; cbn [orb].
    - symmetry. apply bool_decide_true. by left.
    - apply bool_decide_ext. rewrite elem_of_cons. naive_solver. }
  revert s; induction os as [|o os IH]; intros s.
  - cbn. rewrite !orb_false_r. by destruct s.
  - cbn [fold_left last_some]. rewrite IH. unfold zr_eff; cbn [ro_order ro_rev ro_limit ro_scores].
    rewrite <- !orb_assoc, !K. done.
Qed.
Lemma zr_trailing os fss : Forall2 rspells os fss ->
  trailing zrange_step (RangeOpts ByRank false None false) (concat fss) =
  QOk (RangeOpts (last_some order_of ByRank os) (bool_decide (RRev ∈ os)) (last_some limit_of None os) (bool_decide (RWithscores ∈ os))) [].
Proof.
  intros H. unfold trailing, qbind. rewrite <- (app_nil_r (concat fss)).
  rewrite (options_fold zrange_step rspells zr_eff (fun t s p E => suffixing_shrinks _ (zrange_step_suff t s p E))
    (fun o fs s c => zr_spells o fs s c) os fss _ [] (QOk (fold_left zr_eff os (RangeOpts ByRank false None false), None) [])); [|done|done].
  unfold qret. cbn [fst]. by rewrite zr_eff_meaning.
Qed.

(** ** Whole requests *)
Lemma word_name w f c : is_word w f -> ascii_text w = true ->
  from_frame (FArray (f :: c)) =
  match lookup_command (lower w) commands with
  | Some p => match p c with QOk q [] => Some q | _ => None end
  | None => Some (QUnknown (lower w) c)
  end.
Proof.
  intros (b & E & S) U. unfold from_frame, next.
  destruct (lowercase_word b w S U) as [V L].
  assert (A : as_str f = Some b) by (destruct E as [-> | ->]; cbn; by rewrite V).
  by rewrite A, L.
Qed.
Lemma text_bytes b f : is_text b f -> as_bytes f = Some b.
Proof. by intros [->| ->]. Qed.

(** Arity *)
Lemma qbind_ok {A B} (p : qparser A) (g : A -> qparser B) c b c' :
  qbind p g c = QOk b c' -> exists a c1, p c = QOk a c1 /\ g a c1 = QOk b c'.
Proof. unfold qbind. destruct (p c) as [a c1| |] eqn:E; [|done|done]. by exists a, c1. Qed.
Lemma next_ok {A} (conv : frame -> option A) c a c' : next conv c = QOk a c' -> exists f, c = f :: c' /\ conv f = Some a.
Proof. destruct c as [|f c]; cbn; [done|]. destruct (conv f) eqn:E; [|done]. intros H. injection H as <- <-. by exists f. Qed.
Lemma rest_of_ok {A} (conv : frame -> option A) c l c' : rest_of conv c = QOk l c' -> c' = [] /\ length l = length c.
Proof.
  revert l c'; induction c as [|f c IH]; intros l c'; cbn; [intros H; by injection H as <- <-|].
  destruct (conv f); [|done]. destruct (rest_of conv c) as [l' c''| |]; [|done|done].
  intros H. injection H as <- <-. destruct (IH _ _ eq_refl) as [-> <-]. done.
Qed.

(** [uses lo hi p]: an accepting run of [p] that exhausts the frames has taken at least [lo] and at most [hi]. *)
Definition uses {A} (lo : nat) (hi : option nat) (p : qparser A) : Prop :=
  forall c a c', p c = QOk a c' -> (length c' + lo <= length c)%nat /\
    (forall h, hi = Some h -> (length c <= length c' + h)%nat).
Lemma uses_ret {A} (a : A) : uses 0 (Some 0%nat) (qret a).
Proof. intros c b c' H. injection H as <- <-. split; [lia|]. intros h E. injection E as <-. lia. Qed.
Lemma uses_next {A} (conv : frame -> option A) : uses 1 (Some 1%nat) (next conv).
Proof.
  intros c a c' H. apply next_ok in H as (f & -> & _). cbn. split; [lia|]. intros h E. injection E as <-. lia.
Qed.
Lemma uses_bind {A B} l1 h1 l2 h2 (p : qparser A) (g : A -> qparser B) : uses l1 h1 p -> (forall a, uses l2 h2 (g a)) ->
  uses (l1 + l2) (match h1, h2 with Some a, Some b => Some (a + b)%nat | _, _ => None end) (qbind p g).
Proof.
  intros P G c b c' H. apply qbind_ok in H as (a & c1 & H1 & H2). apply P in H1 as [H1 U1]. apply G in H2 as [H2 U2].
  split; [lia|]. intros h E. destruct h1 as [a1|]; [|done]. destruct h2 as [a2|]; [|done]. injection E as <-.
  specialize (U1 _ eq_refl). specialize (U2 _ eq_refl). lia.
Qed.
Lemma uses_weak {A} l h (p : qparser A) : shrinks p -> l = 0%nat -> h = None -> uses l h p.
Proof. intros S -> -> c a c' H. apply S in H. split; [lia|done]. Qed.
Lemma uses_many {A} (conv : frame -> option A) : uses 1 None (many conv).
Proof.
  intros c a c' H. unfold many in H. apply qbind_ok in H as (x & c1 & H1 & H). apply next_ok in H1 as (f & -> & _).
  apply qbind_ok in H as (l & c2 & H1 & H). injection H as <- <-. apply rest_of_ok in H1 as [-> _]. cbn. split; [lia|done].
Qed.
Lemma rest_pairs_shrinks {A B} (c1 : frame -> option A) (c2 : frame -> option B) : shrinks (rest_pairs c1 c2).
Proof.
  intros c. remember (length c) as n eqn:E. revert c E. induction n as [n IH] using lt_wf_ind. intros [|f [|g c]] -> a c' H.
  - by injection H as <- <-.
  - cbn in H. by destruct (c1 f).
  - cbn in H. destruct (c1 f); [|done]. destruct (c2 g); [|done].
    destruct (rest_pairs c1 c2 c) as [l c3| |] eqn:E2; [|done|done]. injection H as <- <-.
    apply (IH (length c)) in E2; cbn; try lia.
Qed.
Lemma uses_pairs {A B} (c1 : frame -> option A) (c2 : frame -> option B) : uses 2 None (many_pairs c1 c2).
Proof.
  intros c a c' H. unfold many_pairs in H. apply qbind_ok in H as (x & c3 & H1 & H). apply next_ok in H1 as (f & -> & _).
  apply qbind_ok in H as (y & c4 & H1 & H). apply next_ok in H1 as (g & -> & _).
  apply qbind_ok in H as (l & c5 & H1 & H). injection H as <- <-. apply rest_pairs_shrinks in H1. cbn. split; [lia|done].
Qed.
Lemma uses_defaulted {A} (d : A) conv : uses 0 (Some 1%nat) (defaulted d (next conv)).
Proof.
  intros c a c' H. unfold defaulted in H. destruct (next conv c) as [x c1| |] eqn:E; try done.
  - injection H as <- <-. apply uses_next in E as [E1 E2]. split; [lia|done].
  - injection H as <- <-. split; [lia|]. intros h E2. injection E2 as <-. lia.
Qed.
Lemma options_suff {S} (step : bytes -> S -> option (qparser S)) : (forall t s p, step t s = Some p -> suffixing p) ->
  forall fuel s, suffixing (options fuel step s).
Proof.
  intros P. induction fuel as [|fuel IH]; intros s c [s' j] c' H; destruct c as [|f c]; cbn [options] in H;
    try (injection H as <- <- <-; by exists []).
  - destruct (as_tag f) as [t|]; [destruct (step t s); [done|]|]; injection H as <- <- <-; by exists [f].
  - destruct (as_tag f) as [t|]; [|injection H as <- <- <-; by exists [f]].
    destruct (step t s) as [p|] eqn:E; [|injection H as <- <- <-; by exists [f]].
    destruct (p c) as [s1 c1| |] eqn:E2; [|done|done]. apply IH in H as [fs ->]. apply (P _ _ _ E) in E2 as [fs' ->].
    exists (f :: fs' ++ fs). cbn. by rewrite <- app_assoc.
Qed.
Lemma uses_trailing {S} (step : bytes -> S -> option (qparser S)) s : (forall t s p, step t s = Some p -> suffixing p) ->
  uses 0 None (trailing step s).
Proof.
  intros P. apply uses_weak; [|done|done]. apply suffixing_shrinks. apply suffixing_bind; [|intros; apply suffixing_ret].
  intros c a c' H. by eapply options_suff in H.
Qed.
(** ZADD: the frame ending the option loop is the first score. *)
Lemma options_junk {S} (step : bytes -> S -> option (qparser S)) : (forall t s p, step t s = Some p -> suffixing p) ->
  forall fuel s c s' f c', options fuel step s c = QOk (s', Some f) c' -> (length c' < length c)%nat.
Proof.
  intros P. induction fuel as [|fuel IH]; intros s c s' f0 c' H; destruct c as [|f c]; cbn [options] in H; try done.
  - destruct (as_tag f) as [t|]; [destruct (step t s); [done|]|]; injection H as <- <- <-; cbn; lia.
  - destruct (as_tag f) as [t|]; [|injection H as <- <- <-; cbn; lia].
    destruct (step t s) as [p|] eqn:E; [|injection H as <- <- <-; cbn; lia].
    destruct (p c) as [s1 c1| |] eqn:E2; [|done|done]. apply IH in H. apply (P _ _ _ E) in E2 as [fs' ->].
    cbn. rewrite app_length. lia.
Qed.
Lemma uses_zadd : uses 3 None p_zadd.
Proof.
  intros c a c' H. unfold p_zadd in H. apply qbind_ok in H as (k & c1 & H1 & H). apply next_ok in H1 as (f & -> & _).
  apply qbind_ok in H as ([o [g|]] & c2 & H1 & H); cbn [snd] in H; [|done].
  apply (options_junk _ zadd_step_suff) in H1.
  destruct (as_float g); [|done].
  apply qbind_ok in H as (m & c3 & H2 & H). apply next_ok in H2 as (h & -> & _).
  apply qbind_ok in H as (l & c4 & H2 & H). injection H as <- <-. apply rest_pairs_shrinks in H2. cbn in *. split; [lia|done].
Qed.

Ltac uses_tac :=
  first
  [ apply uses_ret | apply uses_next | apply uses_many | apply uses_pairs | apply uses_defaulted | exact uses_zadd
  | apply uses_trailing; first [exact ex_step_suff|exact set_step_suff|exact limit_step_suff|exact scores_step_suff
      |exact zrange_step_suff|exact restore_step_suff|exact (flag_step_suff _)]
  | refine (uses_bind _ _ _ _ _ _ _ _); [uses_tac|intros ?; uses_tac] ].
Lemma uses_eq {A} l h l' h' (p : qparser A) : uses l h p -> l' = l -> h' = h -> uses l' h' p.
Proof. by intros H -> ->. Qed.
Ltac arity_tac := refine (uses_eq _ _ _ _ _ _ _ _); [uses_tac|reflexivity|reflexivity].

Lemma arity_uses : Forall (fun e => exists p, lookup_command (fst e) commands = Some p /\ uses (fst (snd e)) (snd (snd e)) p) arity.
Proof. unfold arity. repeat (apply List.Forall_cons; [eexists; split; [reflexivity|cbn [fst snd]; arity_tac]|]). constructor. Qed.
Lemma arity_ascii : Forall (fun e => ascii_text (fst e) = true /\ lower (fst e) = fst e) arity.
Proof. repeat (apply List.Forall_cons; [done|]). constructor. Qed.
Lemma arity_checked n lo hi f args q : (n, (lo, hi)) ∈ arity -> is_word n f ->
  from_frame (FArray (f :: args)) = Some q -> (lo <= length args)%nat /\ (forall h, hi = Some h -> (length args <= h)%nat).
Proof.
  intros I W. apply elem_of_list_In in I.
  pose proof (proj1 (List.Forall_forall _ _) arity_uses _ I) as (p & Lp & U).
  pose proof (proj1 (List.Forall_forall _ _) arity_ascii _ I) as [A1 A2]. cbn [fst snd] in *.
  rewrite (word_name n f args W A1), A2, Lp. destruct (p args) as [q' [|g c]| |] eqn:E; try done.
  intros _. apply U in E. cbn in E. destruct E as [E1 E2]. split; [lia|]. intros h H. specialize (E2 h H). lia.
Qed.
(** every listed name is a command and every command is listed *)
Lemma arity_names n : n ∈ map fst arity <-> is_Some (lookup_command n commands).
Proof.
  split.
  - intros I. apply elem_of_list_In, in_map_iff in I as ([m [lo hi]] & <- & I). 
    pose proof (proj1 (List.Forall_forall _ _) arity_uses _ I) as (p & Lp & _). by exists p.
  - assert (K : forall t, is_Some (lookup_command n t) -> n ∈ map fst t).
    { induction t as [|[m p] t IH]; cbn; [by intros [? ?]|]. case_bool_decide as E; [subst; by left|]. right. auto. }
    intros H. apply K in H. assert (A : Forall (fun m => m ∈ map fst arity) (map fst commands)).
    { apply (bool_decide_eq_true_1 _). vm_compute. reflexivity. }
    apply elem_of_list_In in H. by apply (proj1 (List.Forall_forall _ _) A).
Qed.

(** ** SET accepts options and at most one further frame *)
Lemma lower_same b t : lower b = lower t -> same_text b t.
Proof.
  revert t; induction b as [|x b IH]; intros [|y t] H; try done; [constructor|]. unfold lower in H. cbn in H. injection H as H1 H2.
  constructor; [|by apply IH]. unfold lower_byte in H1. unfold same_letter.
  destruct ((65 <=? Byte.to_N x)%N && (Byte.to_N x <=? 90)%N) eqn:Ex, ((65 <=? Byte.to_N y)%N && (Byte.to_N y <=? 90)%N) eqn:Ey.
  - left. apply (f_equal Byte.to_N) in H1. rewrite !to_N_byte_of_N in H1. rewrite !N.mod_small in H1 by lia.
    apply to_N_inj. lia.
  - right; left. apply (f_equal Byte.to_N) in H1. rewrite !to_N_byte_of_N in H1. rewrite !N.mod_small in H1 by lia. lia.
  - right; right. apply (f_equal Byte.to_N) in H1. rewrite !to_N_byte_of_N in H1. rewrite !N.mod_small in H1 by lia. lia.
  - by left.
Qed.
Lemma same_text_word b w : same_text b w -> same_word b w.
Proof. induction 1; by constructor. Qed.
Lemma lowercase_is_word b : forall w, lowercase b = w -> lower w = w -> same_word b w.
Proof.
  unfold lowercase. assert (G : forall n b w, length b <= n -> lower (kelvin b) = w -> lower w = w -> same_word b w); [|intros w; by apply (G (length b))].
  clear b. induction n as [|n IH]; intros [|x b] w L H W; [subst w; constructor|cbn in L; lia|subst w; constructor|]. cbn in L.
  destruct (kelvin_cases x b) as [(t & -> & -> & E)|E]; rewrite E in H; unfold lower in H, W; cbn [map] in H; subst w; cbn [map] in W.
  - injection W as W2. apply sw_kelvin. apply IH; [cbn in L; lia|done|done].
  - injection W as W1 W2. apply sw_letter; [|apply IH; [lia|done|done]]. assert (same_text [x] [lower_byte x]) as S; [|by inversion S].
    apply lower_same. unfold lower. cbn [map]. by rewrite W1.
Qed.
Lemma lowercase_no_k b w : lowercase b = w -> x6b ∉ w -> lower b = w.
Proof.
  unfold lowercase. intros <- N. f_equal. assert (G : forall n b, length b <= n -> x6b ∉ lower (kelvin b) -> kelvin b = b); [|symmetry; by apply (G (length b))].
  clear b N. induction n as [|n IH]; intros [|x b] L N; [done|cbn in L; lia|done|]. cbn in L.
  destruct (kelvin_cases x b) as [(t & -> & -> & E)|E]; rewrite E in N |- *; unfold lower in N; cbn [map] in N; apply not_elem_of_cons in N as [N1 N2].
  - by destruct N1.
  - f_equal. apply IH; [lia|done].
Qed.
Lemma tag_is_word t f : as_tag f = Some t -> lower t = t -> t <> bs "ping" -> is_word t f.
Proof.
  unfold as_tag, as_str, is_word. intros H L N.
  destruct f as [| |b|b|b|z| |l|]; cbn in H; try discriminate.
  2-3: (destruct (utf8_valid b); [|discriminate]; cbn in H; injection H as E; exists b; split; [auto|];
            apply lowercase_is_word; [exact E|exact L]).
  injection H as E. by destruct N.
Qed.
Lemma set_shapes s c s' j : opt_list set_step s c s' j ->
  exists fss, c = concat fss ++ match j with Some f => [f] | None => [] end /\ Forall set_option_shape fss.
Proof.
  induction 1 as [s|s f H|s f t p fs c s1 s2 j T St P _ (fss & -> & F)].
  - by exists [].
  - by exists [].
  - exists ((f :: fs) :: fss). split; [by cbn; rewrite <- app_assoc|]. apply List.Forall_cons; [|done]. clear F.
    unfold set_step, opt_expires in St.
    assert (K1 : forall w (h : N -> set_expires) X, w ∈ [bs "ex"; bs "px"; bs "exat"; bs "pxat"] -> t = w -> lower t = t -> t <> bs "ping" ->
        qbind (qmap h (next as_u64)) (fun e => qret (SetOpts e (so_nx s) (so_get s))) (fs ++ X) = QOk s1 X ->
        set_option_shape (f :: fs)).
    { intros w h X Iw Ew L NP E. apply qbind_ok in E as (a & c1 & E & E1). injection E1 as _ ->.
      unfold qmap in E. apply qbind_ok in E as (b & c2 & E & E1). injection E1 as _ ->. apply next_ok in E as (g & E & _).
      left. exists f, g, w. assert (fs = [g]) as ->; [|split; [done|split; [subst; by apply tag_is_word|done]]].
      apply (f_equal length) in E as El. rewrite app_length in El. cbn in El. destruct fs as [|g' [|g'' fs]]; cbn in El; try lia.
      by injection E as ->. }
    assert (K2 : forall w X, w ∈ [bs "keepttl"; bs "nx"; bs "xx"; bs "get"] -> t = w -> lower t = t -> t <> bs "ping" -> fs ++ X = X ->
        set_option_shape (f :: fs)).
    { intros w X Iw Ew L NP E. apply (f_equal length) in E. rewrite app_length in E. destruct fs; [|cbn in E; lia].
      right. exists f, w. split; [done|]. split; [subst; by apply tag_is_word|done]. }
    repeat (case_bool_decide as Et; [injection St as <-;
      first [eapply K1; [|exact Et| | |exact P] | unfold qmap, qbind, qret in P; eapply K2; [|exact Et| | |injection P as _ P; exact P]];
      [apply (bool_decide_eq_true_1 _); vm_compute; reflexivity|by subst|by subst]|clear Et]).
    unfold opt_nx, opt_flag in St.
    repeat (case_bool_decide as Et; [injection St as <-;
      unfold qmap, qbind, qret in P; eapply K2; [|exact Et| | |injection P as _ P; exact P];
      [apply (bool_decide_eq_true_1 _); vm_compute; reflexivity|by subst|by subst]|clear Et]).
    done.
Qed.

(** ** Order of options *)
Lemma last_some_perm {A B} (f : A -> option B) l l' : l ≡ₚ l' -> forall d,
  ForallOrdPairs (fun a b => ~ (is_Some (f a) /\ is_Some (f b))) l -> last_some f d l = last_some f d l'.
Proof.
  assert (P : forall l l', l ≡ₚ l' -> ForallOrdPairs (fun a b => ~ (is_Some (f a) /\ is_Some (f b))) l ->
    ForallOrdPairs (fun a b => ~ (is_Some (f a) /\ is_Some (f b))) l').
  { induction 1 as [|x l1 l2 H IH|x y l1|l1 l2 l3 _ IH1 _ IH2]; auto.
    - intros F. inversion F as [|? ? F1 F2]; subst. constructor; [|auto].
      apply List.Forall_forall. intros z Hz. apply (proj1 (List.Forall_forall _ _) F1). apply elem_of_list_In.
      rewrite H. by apply elem_of_list_In.
    - intros F. inversion F as [|? ? F1 F2]; subst. inversion F2 as [|? ? F3 F4]; subst.
      inversion F1 as [|? ? F5 F6]; subst. constructor; [|by constructor]. constructor; [|done]. intros [? ?]. by apply F5. }
  induction 1 as [|x l1 l2 H IH|x y l1|l1 l2 l3 H1 IH1 H2 IH2]; intros d F; [done| | |].
  - cbn. apply IH. by inversion F.
  - cbn. inversion F as [|? ? F1 F2]; subst. inversion F1 as [|? ? F5 F6]; subst.
    destruct (f x) eqn:Ex, (f y) eqn:Ey; try done. destruct F5. split; by eexists.
  - rewrite IH1 by done. apply IH2. by apply (P l1).
Qed.
Lemma ForallOrdPairs_impl {A} (R Q : A -> A -> Prop) l : (forall a b, R a b -> Q a b) -> ForallOrdPairs R l -> ForallOrdPairs Q l.
Proof. intros H. induction 1; constructor; auto. eapply List.Forall_impl; [|done]. auto. Qed.
Lemma set_meaning_perm os os' : os ≡ₚ os' -> ForallOrdPairs (fun a b => ~ conflict a b) os -> set_meaning os = set_meaning os'.
Proof.
  intros H F. unfold set_meaning. f_equal.
  - apply last_some_perm; [done|]. eapply ForallOrdPairs_impl; [|done]. unfold conflict. cbn. tauto.
  - apply last_some_perm; [done|]. eapply ForallOrdPairs_impl; [|done]. unfold conflict. cbn. tauto.
  - apply bool_decide_ext. by rewrite H.
Qed.
Lemma last_some_app {A B} (f : A -> option B) d l l' : last_some f d (l ++ l') = last_some f (last_some f d l) l'.
Proof. revert d; induction l as [|a l IH]; intros d; [done|]. cbn. apply IH. Qed.

(** pairs come in pairs *)
Lemma rest_pairs_even {A B} (c1 : frame -> option A) (c2 : frame -> option B) c l c' :
  rest_pairs c1 c2 c = QOk l c' -> c' = [] /\ length c = (2 * length l)%nat.
Proof.
  remember (length c) as n eqn:E. revert c l c' E. induction n as [n IH] using lt_wf_ind. intros [|f [|g c]] l c' -> H.
  - by injection H as <- <-.
  - cbn in H. by destruct (c1 f).
  - cbn in H. destruct (c1 f); [|done]. destruct (c2 g); [|done].
    destruct (rest_pairs c1 c2 c) as [l1 c3| |] eqn:E2; [|done|done]. injection H as <- <-.
    apply (IH (length c)) in E2 as [-> E2]; cbn; [|lia|done]. split; [done|]. cbn in *. lia.
Qed.
Lemma hset_odd f args q : is_word (bs "hset") f -> from_frame (FArray (f :: args)) = Some q -> Nat.Odd (length args).
Proof.
  intros W. rewrite (word_name _ f args W eq_refl). cbn [lower map].
  change (lookup_command (lower (bs "hset")) commands) with
    (Some (qbind (next as_bytes) (fun k => qbind (many_pairs as_bytes as_data) (fun l => qret (QHset k l))))).
  cbn match. destruct (qbind _ _ args) as [q' [|g c]| |] eqn:E; try done. intros _.
  apply qbind_ok in E as (k & c1 & H1 & E). apply next_ok in H1 as (f1 & -> & _).
  apply qbind_ok in E as (l & c2 & H1 & E). injection E as _ ->.
  unfold many_pairs in H1. apply qbind_ok in H1 as (a & c3 & H2 & H1). apply next_ok in H2 as (f2 & -> & _).
  apply qbind_ok in H1 as (b & c4 & H2 & H1). apply next_ok in H2 as (f3 & -> & _).
  apply qbind_ok in H1 as (l2 & c5 & H2 & H1). injection H1 as _ ->. apply rest_pairs_even in H2 as [_ H2].
  exists (S (length l2)). cbn [length]. rewrite H2. lia.
Qed.
