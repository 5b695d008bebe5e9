(** Proofs about key routing. *)
From Verif Require Export Db SpecSlot BytesFacts.

(** ** Linear algebra of the division step *)
Definition feed (r : N) (bits : list bool) : N := fold_left div_step bits r.

Lemma div_step_xor r1 r2 b1 b2 :
  div_step (N.lxor r1 r2) (xorb b1 b2) = N.lxor (div_step r1 b1) (div_step r2 b2).
Proof.
  unfold div_step. rewrite N.shiftl_lxor.
  assert (H : N.b2n (xorb b1 b2) = N.lxor (N.b2n b1) (N.b2n b2)) by (by destruct b1, b2).
  rewrite H. set (x := N.shiftl r1 1). set (y := N.shiftl r2 1).
  set (u := N.b2n b1). set (v := N.b2n b2).
  assert (R : N.lxor (N.lxor x y) (N.lxor u v) = N.lxor (N.lxor x u) (N.lxor y v)).
  { apply N.bits_inj. intros i. rewrite !N.lxor_spec.
    destruct (N.testbit x i), (N.testbit y i), (N.testbit u i), (N.testbit v i); done. }
  rewrite R. rewrite (N.lxor_spec (N.lxor x u)).
  set (p := N.lxor x u). set (q := N.lxor y v).
  destruct (N.testbit p 16), (N.testbit q 16); cbn [xorb].
  all: apply N.bits_inj; intros i; rewrite !N.lxor_spec;
       destruct (N.testbit p i), (N.testbit q i), (N.testbit 69665 i); done.
Qed.

Lemma feed_xor r1 r2 bits :
  feed (N.lxor r1 r2) bits = N.lxor (feed r1 (repeat false (length bits))) (feed r2 bits).
Proof.
  revert r1 r2; induction bits as [|b bits IH]; intros r1 r2; [done|].
  cbn [feed fold_left length repeat]. fold (feed (div_step r1 false) (repeat false (length bits))).
  fold (feed (div_step r2 b) bits). rewrite <- IH. unfold feed. f_equal.
  rewrite <- div_step_xor. by destruct b.
Qed.

Lemma feed_app r l1 l2 : feed r (l1 ++ l2) = feed (feed r l1) l2.
Proof. unfold feed. apply fold_left_app. Qed.

Lemma feed_split r bits : feed r bits = N.lxor (feed r (repeat false (length bits))) (feed 0 bits).
Proof. rewrite <- feed_xor. by rewrite N.lxor_0_r. Qed.

Notation z8 := (repeat false 8).
Notation z16 := (repeat false 16).

Lemma feed_zeros_comm r n m : feed (feed r (repeat false n)) (repeat false m) = feed (feed r (repeat false m)) (repeat false n).
Proof. rewrite <- !feed_app, <- !repeat_app. f_equal. f_equal. lia. Qed.

Lemma feed_byte b : feed 0 (bits_of_byte b) = Byte.to_N b.
Proof. destruct b; vm_compute; reflexivity. Qed.
Lemma feed_byte_z8 b : feed (Byte.to_N b) z8 = N.shiftl (Byte.to_N b) 8.
Proof. destruct b; vm_compute; reflexivity. Qed.

(** ** Sixteen-bit numbers *)
Lemma lt_pow2_bits x n : (x < 2 ^ n)%N <-> forall i, (n <= i)%N -> N.testbit x i = false.
Proof.
  split.
  - intros H i Hi. destruct (N.eq_dec x 0) as [->|Hx]; [apply N.bits_0|].
    apply N.bits_above_log2. apply N.log2_lt_pow2 in H; lia.
  - intros H. destruct (N.eq_dec x 0) as [->|Hx].
    + destruct (N.eq_dec (2 ^ n) 0) as [E|]; [|lia]. by apply N.pow_nonzero in E.
    + apply N.log2_lt_pow2; [lia|]. destruct (N.lt_ge_cases (N.log2 x) n) as [|G]; [done|].
      specialize (H _ G). rewrite N.bit_log2 in H; done.
Qed.

Lemma div_step_lt r b : (r < 2 ^ 16)%N -> (div_step r b < 2 ^ 16)%N.
Proof.
  intros H. rewrite lt_pow2_bits in H. apply lt_pow2_bits. intros i Hi. unfold div_step.
  assert (T : forall j, (17 <= j)%N -> N.testbit (N.lxor (N.shiftl r 1) (N.b2n b)) j = false).
  { intros j Hj. rewrite N.lxor_spec, N.shiftl_spec_high' by lia.
    rewrite H by lia. destruct j; [lia|]. by destruct b. }
  assert (P : N.testbit 69665 i = (i =? 16)%N).
  { destruct (N.eqb_spec i 16) as [->|]; [done|]. apply N.bits_above_log2. cbn. lia. }
  destruct (N.testbit (N.lxor (N.shiftl r 1) (N.b2n b)) 16) eqn:E.
  - rewrite N.lxor_spec, P. destruct (N.eqb_spec i 16) as [->|]; [by rewrite E|]. rewrite T; [done|lia].
  - destruct (N.eqb_spec i 16) as [->|]; [done|]. apply T. lia.
Qed.

Lemma feed_lt r bits : (r < 2 ^ 16)%N -> (feed r bits < 2 ^ 16)%N.
Proof.
  revert r; induction bits as [|b bits IH]; intros r H; [done|]. cbn. apply IH. by apply div_step_lt.
Qed.

Lemma land_ones_mod x n : N.land x (N.ones n) = (x mod 2 ^ n)%N.
Proof. apply N.land_ones. Qed.

Lemma crc_shift_div v : (v < 2 ^ 16)%N -> crc_shift v = div_step v false.
Proof.
  intros H. unfold crc_shift, div_step. cbn [N.b2n]. rewrite N.lxor_0_r.
  rewrite N.shiftl_spec_high' by lia. change (16 - 1)%N with 15%N.
  rewrite lt_pow2_bits in H.
  change 65535%N with (N.ones 16).
  assert (L : forall i, N.testbit (N.land (N.shiftl v 1) (N.ones 16)) i = (i <? 16)%N && N.testbit (N.shiftl v 1) i).
  { intros i. rewrite N.land_spec.
    destruct (N.ltb_spec i 16).
    - rewrite N.ones_spec_low by lia. by rewrite andb_true_r.
    - rewrite N.ones_spec_high by lia. by rewrite andb_false_r. }
  apply N.bits_inj. intros i.
  destruct (N.testbit v 15) eqn:E; rewrite ?N.lxor_spec, L.
  - replace (N.testbit 4129 i) with ((i <? 16)%N && N.testbit 69665 i).
    2: { destruct (N.ltb_spec i 16).
         - cbn [andb]. change 69665%N with (N.lxor 4129 (N.shiftl 1 16)). rewrite N.lxor_spec.
           rewrite N.shiftl_spec_low by lia. by rewrite xorb_false_r.
         - symmetry. apply N.bits_above_log2. cbn. lia. }
    destruct (N.ltb_spec i 16); [done|]. cbn [andb xorb].
    destruct (N.eq_dec i 16) as [->|].
    + rewrite N.shiftl_spec_high' by lia. change (16 - 1)%N with 15%N. by rewrite E.
    + rewrite N.shiftl_spec_high' by lia. rewrite H by lia.
      replace (N.testbit 69665 i) with false; [done|]. symmetry. apply N.bits_above_log2. cbn. lia.
  - destruct (N.ltb_spec i 16); [done|]. cbn [andb].
    rewrite N.shiftl_spec_high' by lia. symmetry.
    destruct (N.eq_dec (i - 1) 15) as [->|]; [done|]. apply H. lia.
Qed.

Lemma crc_entry_feed b : crc_entry (Byte.to_N b) = feed (N.shiftl (Byte.to_N b) 8) z8.
Proof. destruct b; vm_compute; reflexivity. Qed.

(** A 16-bit number is its high byte and its low byte. *)
Lemma split16 c : (c < 2 ^ 16)%N ->
  exists hi lo, c = N.lxor (N.shiftl (Byte.to_N hi) 8) (Byte.to_N lo) /\
    N.shiftr c 8 = Byte.to_N hi /\ N.land (N.shiftl c 8) 65535 = N.shiftl (Byte.to_N lo) 8.
Proof.
  intros H. exists (byte_of_N (c / 256)), (byte_of_N c). rewrite !to_N_byte_of_N.
  rewrite (N.mod_small (c / 256)) by lia.
  assert (Hs : N.shiftr c 8 = (c / 256)%N) by (by rewrite N.shiftr_div_pow2).
  assert (Hm : (c mod 256)%N = N.land c (N.ones 8)) by (by rewrite N.land_ones).
  split; [|split].
  - rewrite <- Hs, Hm. apply N.bits_inj. intros i. rewrite N.lxor_spec, N.land_spec.
    destruct (N.lt_ge_cases i 8).
    + rewrite N.shiftl_spec_low, N.ones_spec_low by lia. by destruct (N.testbit c i).
    + rewrite N.shiftl_spec_high', N.shiftr_spec', N.ones_spec_high by lia.
      replace (i - 8 + 8)%N with i by lia. by destruct (N.testbit c i).
  - done.
  - change 65535%N with (N.ones 16). rewrite Hm. apply N.bits_inj. intros i. rewrite N.land_spec.
    destruct (N.lt_ge_cases i 8).
    + by rewrite !N.shiftl_spec_low by lia.
    + rewrite !N.shiftl_spec_high' by lia. rewrite N.land_spec.
      destruct (N.lt_ge_cases i 16).
      * by rewrite !N.ones_spec_low by lia.
      * rewrite !N.ones_spec_high by lia. by rewrite !andb_false_r.
Qed.

Lemma xor_bytes a b : exists c, N.lxor (Byte.to_N a) (Byte.to_N b) = Byte.to_N c.
Proof.
  exists (byte_of_N (N.lxor (Byte.to_N a) (Byte.to_N b))). rewrite to_N_byte_of_N.
  symmetry. apply N.mod_small. change 256%N with (2 ^ 8)%N. apply lt_pow2_bits. intros i Hi.
  rewrite N.lxor_spec.
  pose proof (to_N_lt a) as Ha. pose proof (to_N_lt b) as Hb. change 256%N with (2 ^ 8)%N in *.
  rewrite lt_pow2_bits in Ha, Hb. by rewrite Ha, Hb.
Qed.

Lemma crc_update_feed c b : (c < 2 ^ 16)%N ->
  crc_update c b = N.lxor (feed c z8) (feed (Byte.to_N b) z16).
Proof.
  intros H. destruct (split16 c H) as (hi & lo & Hc & Hh & Hl).
  unfold crc_update. rewrite Hh, Hl.
  destruct (xor_bytes hi b) as [x Hx].
  replace (N.land (N.lxor (Byte.to_N hi) (Byte.to_N b)) 255) with (Byte.to_N x).
  2: { rewrite Hx. change 255%N with (N.ones 8). rewrite N.land_ones. symmetry. apply N.mod_small.
       apply to_N_lt. }
  rewrite crc_entry_feed, <- Hx, N.shiftl_lxor.
  rewrite (feed_xor _ _ z8). cbn [length]. rewrite repeat_length.
  change z16 with (z8 ++ z8). rewrite feed_app, feed_byte_z8.
  rewrite Hc at 1. rewrite (feed_xor _ _ z8). rewrite repeat_length. rewrite feed_byte_z8.
  apply N.bits_inj. intros i. rewrite !N.lxor_spec.
  destruct (N.testbit (feed (N.shiftl (Byte.to_N hi) 8) z8) i),
           (N.testbit (feed (N.shiftl (Byte.to_N b) 8) z8) i),
           (N.testbit (N.shiftl (Byte.to_N lo) 8) i); done.
Qed.

(** The table-driven CRC of the crate computes the polynomial remainder. *)
Lemma crc16_correct m : crc16 m = crc16_spec m.
Proof.
  induction m as [|b m IH] using rev_ind; [done|].
  unfold crc16 in *. rewrite fold_left_app. cbn [fold_left]. rewrite IH.
  unfold crc16_spec, poly_rem. rewrite map_app, concat_app. cbn [map concat]. rewrite app_nil_r.
  set (bits := concat (map bits_of_byte m)).
  fold (feed 0 (bits ++ z16)). fold (feed 0 ((bits ++ bits_of_byte b) ++ z16)).
  rewrite crc_update_feed by (apply feed_lt; lia).
  rewrite !feed_app. set (p := feed 0 bits).
  rewrite (feed_split p (bits_of_byte b)), feed_byte.
  change (length (bits_of_byte b)) with 8%nat.
  rewrite feed_xor. rewrite repeat_length.
  rewrite feed_zeros_comm. done.
Qed.

(** ** Hash tags *)
Lemma find_byte_some c key i :
  find_byte c key = Some i -> exists pre post, key = pre ++ c :: post /\ c ∉ pre /\ length pre = i.
Proof.
  revert i; induction key as [|b key IH]; intros i H; [done|]. cbn in H.
  destruct (byte_eq_dec b c) as [->|N].
  - injection H as <-. exists [], key. split; [done|]. split; [apply not_elem_of_nil|done].
  - destruct (find_byte c key) as [j|] eqn:E; [|done]. injection H as <-.
    destruct (IH _ eq_refl) as (pre & post & -> & H1 & H2).
    exists (b :: pre), post. split; [done|]. split; [|cbn; lia].
    rewrite not_elem_of_cons. done.
Qed.

Lemma find_byte_none c key : find_byte c key = None -> c ∉ key.
Proof.
  induction key as [|b key IH]; intros H; [apply not_elem_of_nil|]. cbn in H.
  destruct (byte_eq_dec b c); [done|]. destruct (find_byte c key); [done|].
  apply not_elem_of_cons. auto.
Qed.

Lemma find_byte_app c pre post : c ∉ pre -> find_byte c (pre ++ c :: post) = Some (length pre).
Proof.
  induction pre as [|b pre IH]; intros H; cbn.
  - by destruct (byte_eq_dec c c).
  - apply not_elem_of_cons in H as [H1 H2]. destruct (byte_eq_dec b c); [congruence|].
    by rewrite IH.
Qed.

Lemma hash_part_tag key tag : brace_tag key tag -> hash_part key = tag.
Proof.
  intros (pre & post & -> & H1 & H2). unfold hash_part.
  rewrite find_byte_app by done. rewrite drop_app.
  assert (E : find_byte x7d (x7b :: tag ++ x7d :: post) = Some (S (length tag))).
  { cbn. destruct (byte_eq_dec x7b x7d); [done|]. by rewrite find_byte_app. }
  rewrite E. replace (S (length tag) - 1)%nat with (length tag) by lia.
  replace (length pre + 1)%nat with (S (length pre)) by lia.
  replace (drop (S (length pre)) (pre ++ x7b :: tag ++ x7d :: post)) with (tag ++ x7d :: post).
  - apply take_app.
  - change (pre ++ x7b :: tag ++ x7d :: post) with (pre ++ [x7b] ++ tag ++ x7d :: post).
    rewrite app_assoc. rewrite drop_app_alt; [done|]. rewrite app_length. cbn. lia.
Qed.

Lemma brace_tag_dec key : (exists tag, brace_tag key tag) \/ (hash_part key = key /\ forall tag, ~ brace_tag key tag).
Proof.
  unfold hash_part. destruct (find_byte x7b key) as [b|] eqn:E1.
  - destruct (find_byte_some _ _ _ E1) as (pre & post & -> & H1 & <-).
    rewrite drop_app.
    destruct (find_byte x7d (x7b :: post)) as [e|] eqn:E2.
    + left. cbn in E2. destruct (find_byte x7d post) as [j|] eqn:E3; [|done].
      destruct (find_byte_some _ _ _ E3) as (tag & post' & -> & H2 & _).
      exists tag, pre, post'. done.
    + right. split; [done|]. intros tag (p & q & E & Hp & Hq).
      assert (F : find_byte x7b (pre ++ x7b :: post) = Some (length p)) by (rewrite E; by apply find_byte_app).
      rewrite E1 in F. injection F as F.
      apply app_inj_1 in E as [-> E]; [|done]. injection E as ->.
      apply find_byte_none in E2. apply E2. apply elem_of_cons. right.
      apply elem_of_app. right. by left.
  - right. split; [done|]. intros tag (p & q & -> & _ & _). apply find_byte_none in E1.
    apply E1. apply elem_of_app. right. by left.
Qed.

Lemma get_slot_mod key : get_slot key = (crc16_spec (hash_part key) mod 16384)%N.
Proof.
  unfold get_slot. rewrite crc16_correct. change size_mod with (N.ones 14). by rewrite N.land_ones.
Qed.

Lemma get_slot_lt key : (get_slot key < slot_size)%N.
Proof. rewrite get_slot_mod. unfold slot_size. lia. Qed.

Lemma get_slot_redis key : ~ brace_tag key [] -> redis_slot key (get_slot key).
Proof.
  intros H. exists (hash_part key). split; [|apply get_slot_mod].
  destruct (brace_tag_dec key) as [[tag T]|[E N]].
  - left. rewrite (hash_part_tag _ _ T). split; [intros ->; done|done].
  - right. split; [done|]. intros tag _. apply N.
Qed.

Lemma get_slot_same_tag k1 k2 tag : brace_tag k1 tag -> brace_tag k2 tag -> get_slot k1 = get_slot k2.
Proof.
  intros H1 H2. rewrite !get_slot_mod. by rewrite (hash_part_tag _ _ H1), (hash_part_tag _ _ H2).
Qed.
