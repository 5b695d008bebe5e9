(** What the decoders of stored data deliver fits the format: it can be written and read again. *)
From Verif Require Import BincodeFacts SerdeFacts ServerFacts PropTree.

Definition gives {A} (P : A -> Prop) (g : dec A) : Prop := forall s x r, g s = DOk x r -> P x.

Lemma gives_ret {A} (P : A -> Prop) a : P a -> gives P (dret a).
Proof. intros H s x r [= <- <-]. done. Qed.
Lemma gives_fail {A} (P : A -> Prop) : gives P dfail.
Proof. intros s x r H. discriminate H. Qed.
Lemma gives_bind {A B} (P : A -> Prop) (Q : B -> Prop) (f : dec A) (g : A -> dec B) :
  gives P f -> (forall a, P a -> gives Q (g a)) -> gives Q (dbind f g).
Proof.
  intros F G s x r. unfold dbind. destruct (f s) as [a r'| |] eqn:E; [|done|done]. apply (G a). by eapply F.
Qed.
Lemma gives_any {A} (g : dec A) : gives (fun _ => True) g.
Proof. done. Qed.
Lemma gives_le n : gives (fun x => x < 2 ^ (8 * N.of_nat n))%N (get_le n).
Proof.
  induction n as [|n IH]; [by intros s x r [= <- <-]|]. intros s x r. cbn [get_le].
  destruct s as [|b s]; [done|]. destruct (get_le n s) as [y r'| |] eqn:E; [|done|done]. intros H. apply (f_equal (fun o => match o with DOk z _ => z | _ => 0%N end)) in H. cbv beta iota in H. subst x.
  specialize (IH _ _ _ E). pose proof (Byte.to_N_bounded b).
  replace (8 * N.of_nat (S n))%N with (8 + 8 * N.of_nat n)%N by lia. rewrite N.pow_add_r. change (2 ^ 8)%N with 256%N.
  revert IH. generalize (2 ^ (8 * N.of_nat n))%N. intros. lia.
Qed.
Lemma gives_u64 : gives fits_u64 get_u64.
Proof. exact (gives_le 8). Qed.
Lemma gives_i64 : gives fits_i64 get_i64.
Proof. eapply gives_bind; [apply gives_any|]. intros a _. apply gives_ret. apply wrap_fits. Qed.
Lemma finite_valid s m e : (Z.pos m < 2 ^ 53)%Z -> (-1074 <= e <= 971)%Z -> (2 ^ 52 <= Z.pos m)%Z \/ e = (-1074)%Z ->
  f64_valid (S754_finite s m e) = true.
Proof.
  intros H1 H2 H3. unfold f64_valid, valid_binary, bounded, canonical_mantissa, fexp, SpecFloat.emin, f64_prec, f64_emax.
  pose proof (digits2_bounds m) as [D1 D2]. set (d := Z.pos (digits2_pos m)) in *.
  assert (D : (d <= 53)%Z) by (destruct (Z.le_gt_cases d 53) as [|G]; [done|]; pose proof (Z.pow_le_mono_r 2 53 (d - 1) ltac:(lia) ltac:(lia)); lia).
  apply andb_true_intro. split; [|apply Zle_imp_le_bool; lia]. apply Zeq_is_eq_bool.
  destruct H3 as [H3| ->]; [|lia].
  assert (d = 53)%Z; [|lia].
  destruct (Z.le_gt_cases 53 d) as [|G]; [lia|]. pose proof (Z.pow_le_mono_r 2 d 52 ltac:(lia) ltac:(lia)). lia.
Qed.
Lemma f64_of_bits_valid x : f64_valid (f64_of_bits x) = true.
Proof.
  unfold f64_of_bits. cbv zeta. pose proof (N.mod_lt (x / 2 ^ 52) 2048 ltac:(done)) as Le. pose proof (N.mod_lt x (2 ^ 52) ltac:(done)) as Lm.
  generalize dependent ((x / 2 ^ 52) mod 2048)%N. intros ex Le. generalize dependent (x mod 2 ^ 52)%N. intros m Lm.
  change (2 ^ 52)%N with 4503599627370496%N in *.
  destruct (N.eqb_spec ex 0) as [E|E]; [|destruct (N.eqb_spec ex 2047) as [E2|E2]].
  - destruct m as [|p]; [done|]. apply finite_valid; [change (2 ^ 53)%Z with 9007199254740992%Z; lia|lia|by right].
  - by destruct m.
  - destruct (m + 4503599627370496)%N as [|p] eqn:Em; [done|].
    apply finite_valid; [change (2 ^ 53)%Z with 9007199254740992%Z; lia|lia|left; change (2 ^ 52)%Z with 4503599627370496%Z; lia].
Qed.
Lemma gives_f64 : gives (fun f => f64_valid f = true) get_f64.
Proof.
  eapply gives_bind; [apply gives_u64|]. intros a L. apply gives_ret. apply f64_of_bits_valid. Qed.
Lemma gives_elems {A} (P : A -> Prop) g : gives P g -> forall f n, gives (fun l => N.of_nat (length l) = n /\ Forall P l) (get_elems f g n).
Proof.
  intros G. induction f as [|f IH]; intros n s x r; cbn [get_elems].
  - destruct (N.eqb_spec n 0); [|done]. intros [= <- <-]. by subst.
  - destruct (N.eqb_spec n 0); [intros [= <- <-]; by subst|]. destruct (g s) as [a s'| |] eqn:E; [|done|done].
    destruct (get_elems f g (n - 1) s') as [l r'| |] eqn:E2; [|done|done]. intros [= <- <-].
    destruct (IH _ _ _ _ E2) as [L F]. split; [cbn [length]; lia|]. constructor; [by eapply G|done].
Qed.
Lemma gives_seq {A} (P : A -> Prop) g : gives P g -> gives (list_fits P) (get_seq g).
Proof.
  intros G s x r. unfold get_seq. destruct (get_u64 s) as [n s'| |] eqn:E; [|done|done].
  intros H. apply (gives_elems P g G) in H as [L F]. split; [|done]. unfold fits_len. rewrite L. by apply gives_u64 in E.
Qed.
Lemma gives_bytes : gives fits_len get_bytes.
Proof. intros s x r H. by apply (gives_seq (fun _ => True) get_byte (gives_any _)) in H as [L _]. Qed.
Lemma gives_pair {A B} (P : A -> Prop) (Q : B -> Prop) f g : gives P f -> gives Q g ->
  gives (fun e => P (fst e) /\ Q (snd e)) (get_pair f g).
Proof.
  intros F G. eapply gives_bind; [exact F|]. intros a Ha. eapply gives_bind; [exact G|]. intros b Hb. by apply gives_ret.
Qed.
Lemma gives_node : gives node_fits get_node.
Proof.
  unfold get_node. eapply gives_bind; [exact gives_f64|]. intros a Ha. eapply gives_bind; [exact gives_bytes|]. intros b Hb. by apply gives_ret.
Qed.

(** Tables *)
Lemma map_of_entries_size {A} (l : list (bytes * A)) : (size (map_of_entries l) <= length l)%nat.
Proof.
  unfold map_of_entries. assert (G : forall l (m : gmap bytes A), (size (fold_left (fun m e => <[fst e := snd e]> m) l m) <= size m + length l)%nat).
  { clear l. induction l as [|e l IH]; intros m; cbn [fold_left length]; [lia|]. specialize (IH (<[fst e := snd e]> m)).
    assert (size (<[fst e := snd e]> m) <= S (size m))%nat; [|lia].
    rewrite map_size_insert. destruct (m !! fst e); cbn; lia. }
  specialize (G l ∅). by rewrite map_size_empty in G.
Qed.
Lemma map_of_entries_all {A} (P : bytes * A -> Prop) (l : list (bytes * A)) : Forall P l ->
  forall k x, map_of_entries l !! k = Some x -> P (k, x).
Proof.
  unfold map_of_entries. assert (G : forall l (m : gmap bytes A), Forall P l -> (forall k x, m !! k = Some x -> P (k, x)) ->
    forall k x, fold_left (fun m e => <[fst e := snd e]> m) l m !! k = Some x -> P (k, x)).
  { clear l. induction l as [|[k0 x0] l IH]; intros m F H; cbn [fold_left]; [done|]. apply IH; [by eapply Forall_inv_tail|].
    intros k x. cbn. rewrite lookup_insert_Some. intros [[<- <-]|[_ E]]; [exact (Forall_inv F)|by apply H]. }
  intros F. apply G; [done|]. intros k x H. by rewrite lookup_empty in H.
Qed.
Lemma map_of_entries_fits {A} (P : A -> Prop) l : list_fits (fun e => fits_len (fst e) /\ P (snd e)) l -> map_fits P (map_of_entries l).
Proof.
  intros [L F]. split.
  - pose proof (map_of_entries_size l). unfold fits_len in L. lia.
  - intros k x H. exact (map_of_entries_all _ l F k x H).
Qed.
Lemma table_of_map {A} (m : gmap bytes A) : table (map_to_list m).
Proof. unfold table. by rewrite list_to_map_to_list. Qed.
Lemma entries_fit {A} (P : A -> Prop) (m : gmap bytes A) : map_fits P m ->
  fits_len (map_to_list m) /\ Forall (fun e => fits_len (fst e) /\ P (snd e)) (map_to_list m).
Proof.
  intros [L F]. split.
  - exact L.
  - apply list.Forall_forall. intros [k x] H. apply elem_of_map_to_list in H. by apply F.
Qed.
Lemma set_of_elems_elem (l : list bytes) (s : gset bytes) x : x ∈ fold_left (fun s m => {[ m ]} ∪ s) l s <-> x ∈ l \/ x ∈ s.
Proof.
  revert s. induction l as [|y l IH]; intros s; cbn [fold_left]; [set_solver|]. rewrite IH. set_solver.
Qed.
Lemma set_of_elems_size l : (size (set_of_elems l) <= length l)%nat.
Proof.
  unfold set_of_elems. assert (G : forall l (s : gset bytes), (size (fold_left (fun s m => {[ m ]} ∪ s) l s) <= size s + length l)%nat).
  { clear l. induction l as [|y l IH]; intros s; cbn [fold_left length]; [lia|]. specialize (IH ({[ y ]} ∪ s)).
    pose proof (size_union_alt ({[ y ]} : gset bytes) s) as E. rewrite size_singleton in E.
    pose proof (subseteq_size (s ∖ {[ y ]}) s ltac:(set_solver)). lia. }
  specialize (G l ∅). by rewrite size_empty in G.
Qed.
Lemma set_of_elems_fits l : list_fits fits_len l ->
  (N.of_nat (size (set_of_elems l)) < 2 ^ 64)%N /\ forall m, m ∈ set_of_elems l -> fits_len m.
Proof.
  intros [L F]. split.
  - pose proof (set_of_elems_size l). unfold fits_len in L. lia.
  - intros m H. apply set_of_elems_elem in H as [H|H]; [|set_solver]. rewrite list.Forall_forall in F. by apply F.
Qed.

(** Trees *)
Lemma tree_ok_ordered l : tree_ok l -> tree_ordered l.
Proof.
  intros [S _]. induction S as [|n l S IH F]; [done|]. split; [exact F|exact IH].
Qed.
Lemma ins_length n l : (length (ins n l) <= S (length l))%nat.
Proof. induction l as [|x l IH]; cbn [ins]; [done|]. destruct (node_cmp n x) as [[]|]; cbn [length]; lia. Qed.
Lemma gives_btree : gives (fun l => list_fits node_fits l /\ tree_ordered l) get_btree.
Proof.
  intros s x r. unfold get_btree. destruct (get_seq get_node s) as [l r'| |] eqn:E; [|done|done].
  apply (gives_seq node_fits get_node gives_node) in E as [L F].
  destruct (btree_of_elems l) as [t|] eqn:B; [|done]. intros [= <- <-].
  split; [|by apply tree_ok_ordered, (btree_ok l)].
  revert B. unfold btree_of_elems.
  assert (G : forall l o t, Forall node_fits l -> (forall u, o = Some u -> Forall node_fits u) ->
    fold_left (fun o n => match o with Some t => bt_insert n t | None => None end) l o = Some t ->
    Forall node_fits t /\ exists u, o = Some u /\ (length t <= length u + length l)%nat).
  { clear. induction l as [|n l IH]; intros o t F H E; cbn [fold_left] in E.
    - subst. split; [by apply H|]. exists t. cbn. split; [done|lia].
    - apply IH in E as [Ft (u & E & L)].
      + split; [done|]. destruct o as [v|]; [|done]. exists v. split; [done|]. unfold bt_insert in E.
        destruct (bt_clash n v); [done|]. injection E as <-. pose proof (ins_length n v). cbn [length]. lia.
      + by eapply Forall_inv_tail.
      + intros u Hu. destruct o as [v|]; [|done]. unfold bt_insert in Hu. destruct (bt_clash n v); [done|]. injection Hu as <-.
        specialize (H v eq_refl). pose proof (Forall_inv F) as Fn. clear -H Fn.
        induction H as [|y v Hy H IH]; cbn [ins]; [by constructor|]. destruct (node_cmp n y) as [[]|]; repeat (apply List.Forall_cons; [done|]); done. }
  intros B. apply G in B as [Ft (u & [= <-] & Lt)]; [|done|by intros u [= <-]]. split; [|done]. unfold fits_len in *. cbn in Lt. lia.
Qed.

(** Elements and values *)
Lemma gives_scalar_tag t g : get_scalar_tag t = Some g -> gives scalar_fits g.
Proof.
  unfold get_scalar_tag. repeat case_match; intros X; try discriminate X; injection X as <-.
  all: first [apply gives_ret; done | eapply gives_bind; [first [exact gives_bytes|exact gives_i64|exact gives_f64]|]; intros ? ?; by apply gives_ret].
Qed.
Lemma scalar_elem x : scalar_fits x -> elem_fits x.
Proof. by destruct x. Qed.
Lemma gives_elem n : gives elem_fits (get_elem n).
Proof.
  induction n as [|n IH]; [apply gives_fail|]. cbn [get_elem]. eapply gives_bind; [apply gives_any|]. intros t _.
  destruct (get_scalar_tag t) as [g|] eqn:T.
  - intros s x r H. apply scalar_elem. by eapply (gives_scalar_tag t).
  - repeat case_match; try apply gives_fail.
    all: try (eapply gives_bind; [apply (gives_seq fits_len), gives_bytes|]; intros l Hl; apply gives_ret).
    all: try (eapply gives_bind; [apply (gives_seq elem_fits), IH|]; intros l [L F]; apply gives_ret; by apply elem_fits_deque).
    all: try (eapply gives_bind; [apply (gives_seq (fun e => fits_len (fst e) /\ elem_fits (snd e))), gives_pair; [exact gives_bytes|exact IH]|];
      intros l Hl; apply gives_ret; apply elem_fits_kvp; split; [apply table_of_map|]; by apply entries_fit, map_of_entries_fits).
    all: try (eapply gives_bind; [apply (gives_seq (fun e => fits_len (fst e) /\ node_fits (snd e))), gives_pair; [exact gives_bytes|exact gives_node]|];
      intros es Hes; eapply gives_bind; [exact gives_btree|]; intros l [[L F] T1]; apply gives_ret;
      cbn [elem_fits]; split; [apply table_of_map|]; apply map_of_entries_fits, entries_fit in Hes as [He1 He2]; done).
    apply set_of_elems_fits in Hl as [L F]. cbn [elem_fits]. split; [unfold names; by rewrite list_to_set_elements_L|].
    split; [exact L|]. apply list.Forall_forall. intros m Hm. apply F. by apply elem_of_elements.
Qed.
(** Everything that is read as a value can be written and is read back. *)
Lemma gives_data : gives data_fits get_data.
Proof.
  intros s x r. unfold get_data. generalize (length s) as n. intros n. revert s x r.
  change (gives data_fits (t <~ get_u32;;
    match get_scalar_tag t with
    | Some g => s <~ g;; dret (DScalar s)
    | None =>
        match t with
        | 5 => es <~ get_seq (get_pair get_bytes (get_elem n));; dret (DKvp (map_of_entries es))
        | 6 => l <~ get_seq (get_elem n);; dret (DDeque l)
        | 7 => l <~ get_seq get_bytes;; dret (DSet (set_of_elems l))
        | 8 => es <~ get_seq (get_pair get_bytes get_node);;
               l <~ get_btree;; dret (DZSet (map_of_entries es) l)
        | _ => dfail
        end%N
    end)).
  eapply gives_bind; [apply gives_any|]. intros t _.
  destruct (get_scalar_tag t) as [g|] eqn:T.
  - eapply gives_bind; [by apply (gives_scalar_tag t)|]. intros y Hy. by apply gives_ret.
  - repeat case_match; try apply gives_fail.
    all: try (eapply gives_bind; [apply (gives_seq fits_len), gives_bytes|]; intros l Hl; apply gives_ret; by apply set_of_elems_fits).
    all: try (eapply gives_bind; [apply (gives_seq elem_fits), gives_elem|]; intros l Hl; apply gives_ret; exact Hl).
    all: try (eapply gives_bind; [apply (gives_seq (fun e => fits_len (fst e) /\ elem_fits (snd e))), gives_pair; [exact gives_bytes|apply gives_elem]|];
      intros l Hl; apply gives_ret; by apply map_of_entries_fits).
    eapply gives_bind; [apply (gives_seq (fun e => fits_len (fst e) /\ node_fits (snd e))), gives_pair; [exact gives_bytes|exact gives_node]|].
    intros es Hes. eapply gives_bind; [exact gives_btree|]. intros l [[L F] T1]. apply gives_ret. split; [by apply map_of_entries_fits|done].
Qed.
