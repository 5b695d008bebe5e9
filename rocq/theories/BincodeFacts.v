(** Round trips of the binary encoding. *)
From Verif Require Export SpecBincode BytesFacts OrderFacts.

(** [g] reads back what [p] wrote, leaving the rest of the input. *)
Definition codec {A} (P : A -> Prop) (p : A -> bytes) (g : dec A) : Prop :=
  forall x rest, P x -> g (p x ++ rest) = DOk x rest.
(** Every encoding takes at least one byte. *)
Definition solid {A} (p : A -> bytes) : Prop := forall x, p x <> [].

Lemma get_le_put n x rest : (x < 256 ^ N.of_nat n)%N -> get_le n (put_le n x ++ rest) = DOk x rest.
Proof.
  revert x; induction n as [|n IH]; intros x H.
  - cbn in *. replace x with 0%N by lia. done.
  - cbn [put_le get_le app]. rewrite IH.
    + rewrite to_N_byte_of_N. f_equal. pose proof (N.div_mod x 256). lia.
    + rewrite Nat2N.inj_succ, N.pow_succ_r' in H. apply N.div_lt_upper_bound; lia.
Qed.
Lemma put_le_length n x : length (put_le n x) = n.
Proof. revert x; induction n as [|n IH]; intros x; cbn; [done|]. by rewrite IH. Qed.

Lemma codec_u8 : codec (fun x => x < 256)%N put_u8 get_u8.
Proof. intros x rest H. apply get_le_put. exact H. Qed.
Lemma codec_u16 : codec (fun x => x < 2 ^ 16)%N put_u16 get_u16.
Proof. intros x rest H. apply get_le_put. exact H. Qed.
Lemma codec_u32 : codec (fun x => x < 2 ^ 32)%N put_u32 get_u32.
Proof. intros x rest H. apply get_le_put. exact H. Qed.
Lemma codec_u64 : codec fits_u64 put_u64 get_u64.
Proof. intros x rest H. apply get_le_put. exact H. Qed.

Lemma codec_i64 : codec fits_i64 put_i64 get_i64.
Proof.
  intros x rest H. unfold get_i64, dbind, put_i64. unfold fits_i64 in H.
  rewrite codec_u64; [|unfold fits_u64, i64_as_u64; unfold two64, z_two64 in *; lia].
  unfold dret. f_equal. unfold u64_as_i64, i64_as_u64, wrap_i64, z_two63, z_two64. lia.
Qed.
Lemma codec_bool : codec (fun _ => True) put_bool get_bool.
Proof. intros [] rest _; done. Qed.
Lemma codec_option {A} (P : A -> Prop) p g : codec P p g ->
  codec (fun o => match o with Some a => P a | None => True end) (put_option p) (get_option g).
Proof.
  intros C [a|] rest H; unfold put_option, get_option, dbind; [|done].
  rewrite <- app_assoc. rewrite codec_u8 by lia. cbn [N.eqb Pos.eqb]. unfold dbind. by rewrite C.
Qed.
Lemma codec_pair {A B} (P : A -> Prop) (Q : B -> Prop) p g q h : codec P p g -> codec Q q h ->
  codec (fun x => P (fst x) /\ Q (snd x)) (put_pair p q) (get_pair g h).
Proof.
  intros C D [a b] rest [Ha Hb]. unfold put_pair, get_pair, dbind. cbn [fst snd] in *.
  rewrite <- app_assoc, C by done. by rewrite D.
Qed.

(** ** Sequences *)
Lemma get_elems_put {A} (P : A -> Prop) p g (l : list A) fuel rest : codec P p g -> Forall P l -> (length l <= fuel)%nat ->
  get_elems fuel g (N.of_nat (length l)) (concat (map p l) ++ rest) = DOk l rest.
Proof.
  intros C H. revert fuel; induction H as [|a l Ha _ IH]; intros fuel F; cbn [length] in *.
  - by destruct fuel.
  - destruct fuel as [|fuel]; [lia|]. cbn [get_elems map concat].
    replace (N.of_nat (S (length l)) =? 0)%N with false by lia.
    rewrite <- app_assoc, C by done. replace (N.of_nat (S (length l)) - 1)%N with (N.of_nat (length l)) by lia.
    rewrite IH by lia. done.
Qed.
Lemma concat_solid {A} (p : A -> bytes) l : solid p -> (length l <= length (concat (map p l)))%nat.
Proof.
  intros S. induction l as [|a l IH]; cbn; [done|]. rewrite app_length.
  specialize (S a). destruct (p a); [done|]. cbn. lia.
Qed.
Lemma codec_seq {A} (P : A -> Prop) p g : codec P p g -> solid p ->
  codec (fun l => fits_len l /\ Forall P l) (put_seq p) (get_seq g).
Proof.
  intros C S l rest [F H]. unfold put_seq, get_seq. rewrite <- app_assoc, codec_u64 by done.
  apply (get_elems_put P); [done|done|]. rewrite app_length. pose proof (concat_solid p l S). lia.
Qed.

Lemma codec_byte : codec (fun _ => True) put_byte get_byte.
Proof. intros x rest _. done. Qed.
Lemma codec_bytes : codec fits_len put_bytes get_bytes.
Proof.
  intros x rest H. apply (codec_seq (fun _ => True) put_byte get_byte); [apply codec_byte|done|].
  split; [done|]. by apply Forall_true.
Qed.

Lemma solid_app_l {A} (p q : A -> bytes) : solid p -> solid (fun x => p x ++ q x).
Proof. intros S x H. apply app_eq_nil in H as [H _]. exact (S x H). Qed.
Lemma solid_le n x : put_le (S n) x <> [].
Proof. done. Qed.
Lemma solid_bytes : solid put_bytes.
Proof. intros x. unfold put_bytes, put_seq. done. Qed.
Lemma solid_pair {A B} (p : A -> bytes) (q : B -> bytes) : solid p -> solid (put_pair p q).
Proof. intros S [a b] H. unfold put_pair in H. apply app_eq_nil in H as [H _]. exact (S a H). Qed.

(** ** Floats *)
Lemma digits2_size p : digits2_pos p = Pos.size p.
Proof. induction p; cbn; by rewrite ?IHp. Qed.
Lemma digits2_bounds p : (2 ^ (Z.pos (digits2_pos p) - 1) <= Z.pos p < 2 ^ Z.pos (digits2_pos p))%Z.
Proof.
  rewrite digits2_size. pose proof (Pos.size_gt p) as G. pose proof (Pos.size_le p) as L.
  assert (G' : (Z.pos p < 2 ^ Z.pos (Pos.size p))%Z) by (rewrite <- Pos2Z.inj_pow; lia).
  assert (L' : (2 ^ Z.pos (Pos.size p) <= 2 * Z.pos p)%Z) by (rewrite <- Pos2Z.inj_pow; lia).
  split; [|done]. replace (Z.pos (Pos.size p)) with (Z.succ (Z.pos (Pos.size p) - 1)) in L' by lia.
  rewrite Z.pow_succ_r in L' by lia. lia.
Qed.
Lemma valid_finite s m e : f64_valid (S754_finite s m e) = true ->
  (Z.pos m < 2 ^ 53)%Z /\ (-1074 <= e <= 971)%Z /\ ((2 ^ 52 <= Z.pos m)%Z \/ e = (-1074)%Z).
Proof.
  unfold f64_valid, valid_binary, bounded, canonical_mantissa, fexp, SpecFloat.emin, f64_prec, f64_emax.
  intros H. apply andb_prop in H as [H1 H2]. apply Zeq_bool_eq in H1. apply Zle_bool_imp_le in H2.
  pose proof (digits2_bounds m) as [D1 D2]. set (d := Z.pos (digits2_pos m)) in *.
  assert (d <= 53)%Z by lia.
  assert (Z.pos m < 2 ^ 53)%Z by (eapply Z.lt_le_trans; [exact D2|]; apply Z.pow_le_mono_r; lia).
  split; [done|]. split; [lia|]. destruct (decide (e = (-1074)%Z)) as [?|N]; [by right|left].
  replace d with 53%Z in D1 by lia. exact D1.
Qed.

Lemma f64_bits_lt f : f64_valid f = true -> fits_u64 (f64_bits f).
Proof.
  unfold fits_u64. intros V. destruct f as [[]|[]| |s m e]; [vm_compute; reflexivity .. |]. cbn [f64_bits].
  apply valid_finite in V as (V1 & V2 & V3).
  assert (2 ^ 63 = 9223372036854775808 /\ 2 ^ 52 = 4503599627370496 /\ 2 ^ 64 = 18446744073709551616)%N as (-> & -> & ->) by done.
  assert (2 ^ 53 = 9007199254740992 /\ 2 ^ 52 = 4503599627370496)%Z as (E1 & E2) by done. rewrite E1, E2 in *. clear E1 E2.
  destruct s; destruct (N.leb_spec 4503599627370496 (N.pos m)); lia.
Qed.
Lemma f64_bits_inv f : f64_valid f = true -> f64_of_bits (f64_bits f) = f.
Proof.
  intros V. destruct f as [[]|[]| |s m e]; [vm_compute; reflexivity .. |].
  apply valid_finite in V as (V1 & V2 & V3).
  unfold f64_of_bits. cbn [f64_bits].
  assert (2 ^ 63 = 9223372036854775808 /\ 2 ^ 52 = 4503599627370496)%N as (-> & ->) by done.
  assert (2 ^ 53 = 9007199254740992 /\ 2 ^ 52 = 4503599627370496)%Z as (E1 & E2) by done. rewrite E1, E2 in *. clear E1 E2.
  set (S := if s then 9223372036854775808%N else 0%N).
  destruct (N.leb_spec 4503599627370496 (N.pos m)) as [H|H].
  - set (x := (S + (Z.to_N (e + 1075) * 4503599627370496 + (N.pos m - 4503599627370496)))%N).
    assert (Hq : (x / 4503599627370496 = (if s then 2048 else 0) + Z.to_N (e + 1075))%N).
    { symmetry. apply (N.div_unique _ _ _ (N.pos m - 4503599627370496)%N); unfold x, S; destruct s; lia. }
    assert (Hr : (x mod 4503599627370496 = N.pos m - 4503599627370496)%N).
    { symmetry. apply (N.mod_unique _ _ ((if s then 2048 else 0) + Z.to_N (e + 1075))%N); unfold x, S; destruct s; lia. }
    rewrite Hq, Hr.
    assert (Hs : (9223372036854775808 <=? x)%N = s) by (unfold x, S; destruct s; lia).
    rewrite Hs.
    assert (He : (((if s then 2048 else 0) + Z.to_N (e + 1075)) mod 2048 = Z.to_N (e + 1075))%N).
    { symmetry. apply (N.mod_unique _ _ (if s then 1 else 0)%N); destruct s; lia. }
    rewrite He. replace (Z.to_N (e + 1075) =? 0)%N with false by lia.
    replace (Z.to_N (e + 1075) =? 2047)%N with false by lia.
    replace (N.pos m - 4503599627370496 + 4503599627370496)%N with (N.pos m) by lia.
    f_equal. lia.
  - assert (e = (-1074)%Z) as -> by lia. set (x := (S + N.pos m)%N).
    assert (Hq : (x / 4503599627370496 = (if s then 2048 else 0))%N).
    { symmetry. apply (N.div_unique _ _ _ (N.pos m)); unfold x, S; destruct s; lia. }
    assert (Hr : (x mod 4503599627370496 = N.pos m)%N).
    { symmetry. apply (N.mod_unique _ _ (if s then 2048 else 0)%N); unfold x, S; destruct s; lia. }
    rewrite Hq, Hr.
    assert (Hs : (9223372036854775808 <=? x)%N = s) by (unfold x, S; destruct s; lia).
    rewrite Hs. by destruct s.
Qed.
Lemma codec_f64 : codec (fun f => f64_valid f = true) put_f64 get_f64.
Proof.
  intros f rest V. unfold put_f64, get_f64, dbind. rewrite codec_u64 by (by apply f64_bits_lt).
  unfold dret. by rewrite f64_bits_inv.
Qed.

(** ** Values *)
Lemma codec_scalar : codec scalar_fits put_scalar get_scalar.
Proof.
  intros x rest H. unfold get_scalar, dbind. destruct x as [|b|b|z|f| | | |]; cbn [put_scalar scalar_fits] in *; try (exfalso; exact H);
    rewrite <- ?app_assoc, codec_u32 by lia; cbn [get_scalar_tag]; unfold dbind.
  - done.
  - by rewrite codec_bytes.
  - by rewrite codec_bytes.
  - by rewrite codec_i64.
  - by rewrite codec_f64.
Qed.
Lemma solid_scalar : solid put_scalar.
Proof. intros []; done. Qed.
Lemma codec_node : codec node_fits put_node get_node.
Proof.
  intros [s k] rest [H1 H2]. unfold put_node, get_node, dbind. cbn [n_score n_key] in *.
  rewrite <- app_assoc, codec_f64 by done. by rewrite codec_bytes.
Qed.
Lemma solid_node : solid put_node.
Proof. intros [s k]. done. Qed.

(** ** Hash tables in any order *)
Lemma map_of_entries_perm {A} (m : gmap bytes A) l : l ≡ₚ map_to_list m -> map_of_entries l = m.
Proof.
  intros P. unfold map_of_entries.
  assert (ND : NoDup l.*1) by (rewrite P; apply NoDup_fst_map_to_list).
  assert (G : forall (l : list (bytes * A)) (m0 : gmap bytes A), fold_left (fun m e => <[fst e := snd e]> m) l m0 = (list_to_map (rev l) : gmap bytes A) ∪ m0).
  { clear. induction l as [|[k x] l IH] using rev_ind; intros m0; [cbn; by rewrite map_empty_union|].
    rewrite fold_left_app. cbn [fold_left fst snd]. rewrite IH, rev_app_distr. cbn. by rewrite insert_union_l. }
  rewrite G, map_union_empty. transitivity (list_to_map (map_to_list m) : gmap bytes A); [|apply list_to_map_to_list].
  apply list_to_map_proper.
  - by rewrite <- Permutation_rev.
  - by rewrite <- Permutation_rev.
Qed.
Lemma perm_fits {A} (P : A -> Prop) (ho : horder) (m : gmap bytes A) : horder_ok ho -> map_fits P m ->
  fits_len (ho _ m) /\ Forall (fun x => fits_len (fst x) /\ P (snd x)) (ho _ m).
Proof.
  intros H [F1 F2]. split.
  - unfold fits_len. rewrite (Permutation_length (H _ m)). exact F1.
  - rewrite (H _ m). apply Forall_forall. intros [k x] E. apply elem_of_list_In, elem_of_map_to_list in E.
    cbn. by apply F2.
Qed.
Lemma codec_map {A} (P : A -> Prop) (ho : horder) (p : A -> bytes) (g : dec A) : horder_ok ho -> codec P p g ->
  forall (m : gmap bytes A) rest, map_fits P m ->
  exists l, get_seq (get_pair get_bytes g) (put_seq (put_pair put_bytes p) (ho _ m) ++ rest) = DOk l rest /\ map_of_entries l = m.
Proof.
  intros H C m rest F. exists (ho _ m). split; [|apply map_of_entries_perm, H].
  apply (codec_seq (fun x => fits_len (fst x) /\ P (snd x))).
  - apply codec_pair; [apply codec_bytes|done].
  - apply solid_pair, solid_bytes.
  - by apply perm_fits.
Qed.
Lemma set_order_elems ho s : horder_ok ho -> set_order ho s ≡ₚ elements s.
Proof.
  intros H. unfold set_order. rewrite (H _ _).
  apply NoDup_Permutation; [apply NoDup_fst_map_to_list|apply NoDup_elements|].
  intros x. rewrite elem_of_elements, elem_of_list_fmap. split.
  - intros ([k u] & -> & E). apply elem_of_map_to_list, lookup_gset_to_gmap_Some in E as [E _]. done.
  - intros E. exists (x, tt). split; [done|]. apply elem_of_map_to_list, lookup_gset_to_gmap_Some. done.
Qed.
Lemma set_of_elems_elems l : set_of_elems l = list_to_set l.
Proof.
  unfold set_of_elems.
  assert (G : forall (l : list bytes) (s0 : gset bytes), fold_left (fun (s : gset bytes) m => {[ m ]} ∪ s) l s0 = (list_to_set l : gset bytes) ∪ s0).
  { clear. induction l as [|m l IH]; intros s0; cbn; [set_solver|]. rewrite IH. set_solver. }
  rewrite G. set_solver.
Qed.

(** ** Trees: inserting increasing elements one after the other *)
Lemma ins_last l n : Forall (fun x => node_lt x n) l -> ins n l = l ++ [n].
Proof.
  induction 1 as [|x l Hx _ IH]; [done|]. cbn [ins]. rewrite (proj2 (node_cmp_gt n x) Hx). by rewrite IH.
Qed.
Lemma lt_numbers a b : node_lt a b -> node_nan a = false /\ node_nan b = false.
Proof.
  unfold node_lt, node_cmp, node_nan. destruct a as [[] ?], b as [[] ?]; cbn; try done; by destruct s.
Qed.
Lemma btree_of_ordered l : tree_ordered l -> btree_of_elems l = Some l.
Proof.
  unfold btree_of_elems.
  assert (G : forall l acc, tree_ordered l -> (forall x y, x ∈ acc -> y ∈ l -> node_lt x y) ->
     fold_left (fun o n => match o with Some t => bt_insert n t | None => None end) l (Some acc) = Some (acc ++ l)).
  { clear l. induction l as [|n l IH]; intros acc T H; cbn [fold_left]; [by rewrite app_nil_r|].
    cbn [tree_ordered] in T. destruct T as (T2 & T3). unfold bt_insert.
    assert (Cl : bt_clash n acc = false).
    { assert (L : Forall (fun x => node_lt x n) acc)
        by (apply Forall_forall; intros x Hx; apply H; [by apply elem_of_list_In|left]).
      destruct acc as [|a acc]; [done|]. unfold bt_clash. rewrite (proj2 (lt_numbers _ _ (Forall_inv L))). cbn [orb].
      clear -L. induction L as [|x l' Hx _ IH]; [done|]. cbn [existsb]. by rewrite (proj1 (lt_numbers _ _ Hx)), IH. }
    rewrite Cl. rewrite ins_last by (apply Forall_forall; intros x Hx; apply H; [by apply elem_of_list_In|left]).
    rewrite IH; [by rewrite <- app_assoc|done|].
    intros x y Hx Hy. apply elem_of_app in Hx as [Hx|Hx].
    - apply H; [done|by right].
    - apply elem_of_list_singleton in Hx as ->. rewrite Forall_forall in T2. apply T2. by apply elem_of_list_In. }
  intros T. apply (G l []); [done|]. intros x y Hx. by apply elem_of_nil in Hx.
Qed.

(** ** Elements of lists and hashes *)
Lemma scalar_ind' (P : scalar -> Prop) : P SNull -> (forall b, P (SString b)) -> (forall b, P (SBytes b)) ->
  (forall z, P (SInteger z)) -> (forall f, P (SFloat f)) -> (forall m, Forall (fun e => P (snd e)) m -> P (SKvp m)) ->
  (forall l, Forall P l -> P (SDeque l)) -> (forall s, P (SSet s)) -> (forall h l, P (SZSet h l)) -> forall x, P x.
Proof.
  intros H1 H2 H3 H4 H5 H6 H7 H8 H9. fix go 1. intros [|b|b|z|f|m|l|s|h l];
    [exact H1|exact (H2 b)|exact (H3 b)|exact (H4 z)|exact (H5 f)| | |exact (H8 s)|exact (H9 h l)].
  - apply H6. induction m as [|[k x] m IH]; constructor; [apply go|exact IH].
  - apply H7. induction l as [|x l IH]; constructor; [apply go|exact IH].
Qed.
Lemma elem_fits_kvp m : elem_fits (SKvp m) <-> table m /\ fits_len m /\ Forall (fun e => fits_len (fst e) /\ elem_fits (snd e)) m.
Proof.
  cbn [elem_fits]. assert (G : forall l : list (bytes * scalar),
    (fix all l := match l with [] => True | e :: l' => (fits_len (fst e) /\ elem_fits (snd e)) /\ all l' end) l <->
    Forall (fun e => fits_len (fst e) /\ elem_fits (snd e)) l).
  { induction l as [|e l IH]; [split; [constructor|done]|]. rewrite List.Forall_cons_iff. by rewrite IH. }
  by rewrite G.
Qed.
Lemma elem_fits_deque l : elem_fits (SDeque l) <-> fits_len l /\ Forall elem_fits l.
Proof.
  cbn [elem_fits]. assert (G : forall l : list scalar,
    (fix all l := match l with [] => True | e :: l' => elem_fits e /\ all l' end) l <-> Forall elem_fits l).
  { clear. induction l as [|e l IH]; [split; [constructor|done]|]. rewrite List.Forall_cons_iff. by rewrite IH. }
  by rewrite G.
Qed.
(** How deep collections are nested. *)
Fixpoint elem_depth (x : scalar) : nat :=
  match x with
  | SKvp m => S (list_max (map (fun e => elem_depth (snd e)) m))
  | SDeque l => S (list_max (map elem_depth l))
  | _ => 1
  end.
Lemma table_nodup {A} (m : list (bytes * A)) : table m -> NoDup m.*1.
Proof. intros <-. apply NoDup_fst_map_to_list. Qed.
Lemma table_order {A} (ho : horder) (m : list (bytes * A)) : horder_ok ho -> table m -> ho _ (list_to_map m) ≡ₚ m.
Proof. intros H T. rewrite (H _ _). by rewrite T. Qed.
(** The entries of a nested hash in the order in which they are written. *)
Lemma kvp_entries (ho : horder) m : horder_ok ho -> table m -> exists m', m' ≡ₚ m /\
  put_seq (put_pair put_bytes id) (ho _ (list_to_map (map (fun e => (fst e, put_elem ho (snd e))) m))) =
  put_seq (put_pair put_bytes (put_elem ho)) m'.
Proof.
  intros H T. set (f := fun e : bytes * scalar => (fst e, put_elem ho (snd e))).
  assert (P : ho _ (list_to_map (map f m)) ≡ₚ map f m).
  { rewrite (H _ _). apply map_to_list_to_map. rewrite <- list_fmap_compose. apply (table_nodup m T). }
  apply Permutation_map_inv in P as (m' & -> & P). exists m'. split; [by symmetry|].
  unfold put_seq. rewrite map_length. f_equal. f_equal. rewrite map_map. done.
Qed.
Lemma codec_elem ho n : horder_ok ho -> codec (fun x => elem_fits x /\ elem_depth x <= n)%nat (put_elem ho) (get_elem n).
Proof.
  intros H. induction n as [|n IH]; intros x rest [F D]; [destruct x; cbn in D; lia|].
  assert (Sm : forall y, scalar_fits y -> put_elem ho y = put_scalar y -> get_elem (S n) (put_elem ho y ++ rest) = DOk y rest).
  { intros y Fy ->. pose proof (codec_scalar y rest Fy) as C. unfold get_scalar, dbind in C. cbn [get_elem]. unfold dbind.
    destruct (get_u32 (put_scalar y ++ rest)) as [t r| |]; try done. by destruct (get_scalar_tag t). }
  assert (So : solid (put_elem ho)) by (intros []; done).
  destruct x as [|b|b|z|f|m|l|s|h l]; try (by apply Sm).
  - apply elem_fits_kvp in F as (T & Fl & Fm). cbn [put_elem get_elem elem_depth] in *. unfold dbind.
    rewrite <- app_assoc, codec_u32 by lia. cbn [get_scalar_tag].
    destruct (kvp_entries ho m H T) as (m' & P & ->).
    rewrite (codec_seq (fun e => fits_len (fst e) /\ elem_fits (snd e) /\ (elem_depth (snd e) <= n)%nat) _
              (get_pair get_bytes (get_elem n))).
    + unfold dret. do 2 f_equal. rewrite (map_of_entries_perm (list_to_map m)); [exact T|].
      by rewrite T.
    + exact (codec_pair fits_len (fun x => elem_fits x /\ (elem_depth x <= n)%nat) _ _ _ _ codec_bytes IH).
    + apply solid_pair, solid_bytes.
    + split; [unfold fits_len; by rewrite P|]. rewrite P.
      apply Forall_forall. intros e He. rewrite Forall_forall in Fm. destruct (Fm e He) as [F1 F2]. repeat split; try done.
      assert (list_max (map (fun e => elem_depth (snd e)) m) <= n)%nat as L by lia. apply list_max_le in L.
      rewrite Forall_map, Forall_forall in L. by apply L.
  - apply elem_fits_deque in F as (Fl & Fm). cbn [put_elem get_elem elem_depth] in *. unfold dbind.
    rewrite <- app_assoc, codec_u32 by lia. cbn [get_scalar_tag].
    rewrite (codec_seq _ _ _ IH So); [done|]. split; [done|]. apply Forall_forall. intros e He.
    rewrite Forall_forall in Fm. split; [by apply Fm|].
    assert (list_max (map elem_depth l) <= n)%nat as L by lia. apply list_max_le in L.
    rewrite Forall_map, Forall_forall in L. by apply L.
  - destruct F as (T & F1 & F2). cbn [put_elem get_elem elem_depth] in *. unfold dbind.
    rewrite <- app_assoc, codec_u32 by lia. cbn [get_scalar_tag].
    assert (P : set_order ho (list_to_set s) ≡ₚ s) by (rewrite (set_order_elems ho _ H); by rewrite T).
    rewrite (codec_seq fits_len put_bytes get_bytes codec_bytes solid_bytes).
    + unfold dret. do 2 f_equal. rewrite set_of_elems_elems. etrans; [|exact T]. f_equal. apply set_eq. intros y.
      rewrite !elem_of_list_to_set. by rewrite P.
    + unfold fits_len. rewrite P. done.
  - destruct F as (T & F1 & F2 & F3 & F4 & F5). cbn [put_elem get_elem elem_depth] in *. unfold dbind.
    rewrite <- !app_assoc, codec_u32 by lia. cbn [get_scalar_tag].
    assert (P : ho _ (list_to_map h) ≡ₚ h) by by apply table_order.
    rewrite (codec_seq (fun e => fits_len (fst e) /\ node_fits (snd e)) (put_pair put_bytes put_node) (get_pair get_bytes get_node)).
    + unfold get_btree. rewrite (codec_seq node_fits put_node get_node codec_node solid_node) by done.
      rewrite btree_of_ordered by done. unfold dret. do 2 f_equal.
      rewrite (map_of_entries_perm (list_to_map h)); [exact T|]. by rewrite T.
    + exact (codec_pair fits_len node_fits _ _ _ _ codec_bytes codec_node).
    + apply solid_pair, solid_bytes.
    + unfold fits_len. rewrite P. done.
Qed.
Lemma solid_elem ho : solid (put_elem ho).
Proof. intros []; done. Qed.
(** Every level of nesting takes some bytes. *)
Lemma concat_part {A} (p : A -> bytes) l x : In x l -> (length (p x) <= length (concat (map p l)))%nat.
Proof.
  induction l as [|y l IH]; [done|]. intros [->|Hx]; cbn; rewrite app_length; [lia|]. specialize (IH Hx). lia.
Qed.
Lemma depth_length ho x : horder_ok ho -> elem_fits x -> (elem_depth x <= length (put_elem ho x))%nat.
Proof.
  intros H. induction x as [|b|b|z|f|m IH|l IH|s|h l] using scalar_ind'; intros F;
    try (cbn [elem_depth]; pose proof (solid_elem ho) as So; match goal with |- (_ <= length (put_elem _ ?y))%nat =>
      specialize (So y); destruct (put_elem ho y); [done|cbn [length]; lia] end).
  - apply elem_fits_kvp in F as (T & _ & Fm). cbn [put_elem elem_depth]. destruct (kvp_entries ho m H T) as (m' & P & ->).
    rewrite app_length. unfold put_u32 at 1. rewrite put_le_length. unfold put_seq. rewrite app_length.
    assert (list_max (map (fun e => elem_depth (snd e)) m) <= length (concat (map (put_pair put_bytes (put_elem ho)) m')))%nat; [|lia].
    apply list_max_le, Forall_map, Forall_forall. intros e He. rewrite Forall_forall in IH, Fm.
    etrans; [apply (IH e He), (Fm e He)|].
    etrans; [|apply (concat_part _ m' e), (Permutation_in e (Permutation_sym P) He)]. unfold put_pair. rewrite app_length. lia.
  - apply elem_fits_deque in F as (_ & Fm). cbn [put_elem elem_depth].
    rewrite app_length. unfold put_u32 at 1. rewrite put_le_length. unfold put_seq. rewrite app_length.
    assert (list_max (map elem_depth l) <= length (concat (map (put_elem ho) l)))%nat; [|lia].
    apply list_max_le, Forall_map, Forall_forall. intros e He. rewrite Forall_forall in IH, Fm.
    etrans; [apply (IH e He), (Fm e He)|]. apply (concat_part _ l e He).
Qed.
Lemma codec_data ho : horder_ok ho -> codec data_fits (put_data ho) get_data.
Proof.
  intros H x rest F. unfold get_data.
  assert (De : forall y, elem_fits y -> (length (put_elem ho y) <= length (put_data ho x))%nat ->
    (elem_depth y <= length (put_data ho x ++ rest))%nat).
  { intros y Fy L. rewrite app_length. pose proof (depth_length ho y H Fy). lia. }
  generalize dependent (length (put_data ho x ++ rest)). intros n De. unfold dbind.
  destruct x as [s|m|l|s|h l]; cbn [put_data data_fits] in *.
  - pose proof (codec_scalar s rest F) as C. unfold get_scalar, dbind in C.
    destruct (get_u32 (put_scalar s ++ rest)) as [t r| |]; try done.
    destruct (get_scalar_tag t) as [g|]; [|done]. by rewrite C.
  - rewrite <- app_assoc, codec_u32 by lia. cbn [get_scalar_tag].
    destruct (codec_map (fun x => elem_fits x /\ (elem_depth x <= n)%nat) ho (put_elem ho) (get_elem n) H (codec_elem ho n H) m rest)
      as (l & -> & E); [|unfold dret; by rewrite E].
    destruct F as [F1 F2]. split; [done|]. intros k x Hx. destruct (F2 k x Hx) as [Fk Fx]. repeat split; try done.
    assert (Hin : In (k, x) (ho _ m)) by (apply elem_of_list_In; rewrite (H _ m); by apply elem_of_map_to_list).
    apply (De x Fx). pose proof (concat_part (put_pair put_bytes (put_elem ho)) _ _ Hin) as L.
    unfold put_pair at 1 in L. cbn [fst snd] in L. rewrite app_length in L. unfold put_seq. rewrite !app_length. lia.
  - rewrite <- app_assoc, codec_u32 by lia. cbn [get_scalar_tag].
    rewrite (codec_seq _ _ _ (codec_elem ho n H) (solid_elem ho)); [done|]. destruct F as [F1 F2]. split; [done|].
    apply Forall_forall. intros x Hx. rewrite Forall_forall in F2. split; [by apply F2|].
    apply (De x (F2 x Hx)). pose proof (concat_part (put_elem ho) _ _ Hx) as L. unfold put_seq. rewrite !app_length. lia.
  - rewrite <- app_assoc, codec_u32 by lia. cbn [get_scalar_tag]. destruct F as [F1 F2].
    rewrite (codec_seq fits_len put_bytes get_bytes codec_bytes solid_bytes).
    + unfold dret. rewrite set_of_elems_elems. do 2 f_equal.
      apply set_eq. intros y. rewrite elem_of_list_to_set, (set_order_elems ho s H). apply elem_of_elements.
    + unfold fits_len. rewrite (set_order_elems ho s H). split; [done|].
      apply Forall_forall. intros y Hy. apply F2, elem_of_elements. by apply elem_of_list_In.
  - rewrite <- !app_assoc, codec_u32 by lia. cbn [get_scalar_tag]. destruct F as (F1 & F2 & F3 & F4).
    destruct (codec_map node_fits ho put_node get_node H codec_node h (put_seq put_node l ++ rest) F1) as (es & -> & E).
    unfold get_btree. rewrite (codec_seq node_fits put_node get_node codec_node solid_node) by done.
    rewrite btree_of_ordered by done. unfold dret. by rewrite E.
Qed.
Lemma codec_value ho : horder_ok ho -> codec value_fits (put_value ho) get_value.
Proof.
  intros H [x e lg] rest (F1 & F2 & F3). unfold put_value, get_value, dbind. cbn [v_data v_exp v_log] in *.
  rewrite <- !app_assoc, (codec_data ho H) by done. rewrite codec_u64 by done. by rewrite codec_u64.
Qed.
Lemma codec_dict ho : horder_ok ho -> codec dict_fits (put_dict ho) get_dict.
Proof.
  intros H [w m] rest [F1 F2]. unfold put_dict, get_dict, dbind. cbn [write_id inner] in *.
  rewrite <- !app_assoc, codec_u64 by done.
  destruct (codec_map value_fits ho (put_value ho) get_value H (codec_value ho H) m rest F2) as (l & -> & E).
  unfold dret. by rewrite E.
Qed.
Lemma horder_default_ok : horder_ok horder_default.
Proof. intros A m; reflexivity. Qed.

(** ** Forwarded messages *)
Lemma codec_nx : codec (fun _ => True) put_nx get_nx.
Proof. intros [] rest _; done. Qed.
Lemma codec_gl : codec (fun _ => True) put_gl get_gl.
Proof. intros [] rest _; done. Qed.
Lemma codec_ea : codec ea_fits put_ea get_ea.
Proof.
  intros [ms|] rest H; unfold get_ea, dbind; cbn [put_ea ea_fits] in *; rewrite <- ?app_assoc, codec_u32 by lia; [|done].
  by rewrite codec_u64.
Qed.
Lemma codec_bound {A} (P : A -> Prop) p g : codec P p g -> codec (bound_fits P) (put_bound p) (get_bound g).
Proof.
  intros C [|a|a] rest H; unfold get_bound, dbind; cbn [put_bound bound_fits] in *;
    rewrite <- ?app_assoc, codec_u32 by lia; [done| |]; by rewrite C.
Qed.
Lemma codec_list {A} (P : A -> Prop) p g : codec P p g -> solid p -> codec (list_fits P) (put_seq p) (get_seq g).
Proof. apply codec_seq. Qed.

Lemma codec_wcmd : codec (fun c => match c with Some (WRestore _) => False | Some w => wreq_fits w | None => True end)
  put_wcmd get_wcmd.
Proof.
  intros c rest H. unfold get_wcmd. unfold dbind at 1.
  destruct c as [w|]; [|done].
  destruct w; try done; destruct H as [Hk H]; cbn [put_wcmd wkey] in *;
    repeat match goal with H : _ /\ _ |- _ => destruct H end;
    rewrite <- ?app_assoc; rewrite codec_u32 by lia; unfold dbind;
    repeat first
      [ rewrite codec_bytes by done
      | rewrite codec_u64 by done
      | rewrite codec_i64 by done
      | rewrite codec_bool by done
      | rewrite codec_nx by done
      | rewrite codec_gl by done
      | rewrite codec_ea by done
      | rewrite codec_scalar by done
      | rewrite (codec_list _ _ _ codec_bytes solid_bytes) by done
      | rewrite (codec_list _ _ _ codec_scalar solid_scalar) by done
      | rewrite (codec_list _ _ _ codec_node solid_node) by done
      | rewrite (codec_list _ _ _ (codec_pair _ _ _ _ _ _ codec_bytes codec_scalar) (solid_pair _ _ solid_bytes)) by done
      | rewrite (codec_pair _ _ _ _ _ _ (codec_bound _ _ _ codec_f64) (codec_bound _ _ _ codec_f64)) by done
      | rewrite (codec_pair _ _ _ _ _ _ (codec_bound _ _ _ codec_bytes) (codec_bound _ _ _ codec_bytes)) by done ];
    done.
Qed.
Lemma codec_msg : codec sendable put_msg get_msg.
Proof.
  intros [i s c] rest (H1 & H2 & H3). unfold put_msg, get_msg, dbind. cbn [fm_id fm_slot fm_cmd] in *.
  rewrite <- !app_assoc, codec_u64 by done. rewrite codec_u64 by done. by rewrite codec_wcmd.
Qed.
Lemma receive_put_msgs ms rest fuel : Forall sendable ms -> (length ms <= fuel)%nat ->
  receive_cmd fuel (put_msgs ms ++ rest) = (ms ++ fst (receive_cmd (fuel - length ms) rest), snd (receive_cmd (fuel - length ms) rest)).
Proof.
  intros H. revert fuel; induction H as [|m ms Hm _ IH]; intros fuel F; cbn [length] in *.
  - rewrite Nat.sub_0_r. cbn. by destruct (receive_cmd fuel rest).
  - destruct fuel as [|fuel]; [lia|]. unfold put_msgs in *. cbn [map concat receive_cmd].
    rewrite <- app_assoc, codec_msg by done. rewrite IH by lia. done.
Qed.
Lemma put_msgs_length ms : (length ms <= length (put_msgs ms))%nat.
Proof. apply (concat_solid put_msg). intros [i s c]. done. Qed.
