(** The parts of C08, C15, C18, C19, C32, C42, C68 and C70 that differ from Redis, described exactly: for every
    input, what the code does. *)
From Verif Require Import ZsetInv PropZset VisitFacts SlotFacts SimpleFacts CollFacts.
From Verif Require Export SpecText.
From Verif Require Import TextFacts.

(** ** C08: every key.  A key whose first brace pair is empty always goes to slot 0; this is the slot of Redis
    only by accident. *)
Theorem C08_every_key (key : bytes) :
  (brace_tag key [] -> get_slot key = 0%N) /\
  (redis_slot key (get_slot key) <-> ~ brace_tag key [] \/ (crc16_spec key mod 16384 = 0)%N).
Proof.
  assert (Z : brace_tag key [] -> get_slot key = 0%N).
  { intros T. rewrite get_slot_mod, (hash_part_tag _ _ T). vm_compute. reflexivity. }
  split; [done|].
  assert (R : brace_tag key [] -> redis_hashed key key).
  { intros T. right. split; [done|]. intros tag Ne T'. apply Ne. rewrite <- (hash_part_tag _ _ T'). by apply hash_part_tag. }
  split.
  - intros (p & H & E). destruct (decide (crc16_spec key mod 16384 = 0)%N) as [D|D]; [by right|left].
    intros T. rewrite (Z T) in E. apply D. destruct H as [[Np Tp]|[-> _]]; [|done].
    exfalso. apply Np. rewrite <- (hash_part_tag _ _ Tp). by apply hash_part_tag.
  - intros H. destruct (brace_tag_dec key) as [[tag T]|[_ NT]].
    + destruct tag as [|b tag]; [|apply get_slot_redis; intros T'; apply hash_part_tag in T, T'; congruence].
      destruct H as [H|H]; [done|]. exists key. split; [by apply R|]. by rewrite (Z T), H.
    + apply get_slot_redis. apply NT.
Qed.
Print Assumptions C08_every_key.
Example C08_every_key_case : brace_tag (bs "{}ab") [] /\ get_slot (bs "{}ab") = 0%N /\ (crc16_spec (bs "{}ab") mod 16384)%N <> 0%N.
Proof.
  split; [|split; [by vm_compute|by vm_compute]]. exists [], (bs "ab"). split; [done|]. split; set_solver.
Qed.

(** ** C15: EXPIRE with every combination of options: the table of the code.  It differs from Redis in two
    places: NX with GT or LT never acts, and XX LT sets a deadline on a key that has none. *)
Definition code_expire_table (nx : nx_xx) (gl : gt_lt) (cur : option N) (new : N) : bool :=
  match nx, gl, cur with
  | NxXx_Nx, GtLt_None, None => true
  | NxXx_Nx, _, _ => false
  | NxXx_Xx, GtLt_None, None => false
  | _, GtLt_None, _ => true
  | _, GtLt_Gt, None => false
  | _, GtLt_Gt, Some c => (c <? new)%N
  | _, GtLt_Lt, None => true
  | _, GtLt_Lt, Some c => (new <? c)%N
  end.
Theorem C15_every_option (now : N) (k : bytes) (new : N) (nx : nx_xx) (gl : gt_lt) (d : dict) :
  let '(d', r, u) := wapply now (WExpire k new nx gl) d in
  only_key k d d' /\
  match view now d k with
  | None => r = OOk (PBool false) /\ contents d' k = contents d k
  | Some (x, e) =>
      let b := code_expire_table nx gl (forever_or e) new in
      r = OOk (PBool b) /\ contents d' k = (if b then Some (x, new) else contents d k)
  end.
Proof.
  cbn [wapply]. destruct (expire_apply now k new nx gl d) as [[d' b] u] eqn:E.
  destruct (expire_spec _ _ _ _ _ _ _ _ _ E) as (H1 & H2). split; [done|].
  destruct (view now d k) as [[x e]|]; [|by destruct H2 as [-> ->]].
  destruct H2 as [-> ->].
  assert (T : expire_update nx gl e new = code_expire_table nx gl (forever_or e) new); [|by rewrite T].
  unfold expire_update, code_expire_table, forever_or. destruct nx, gl, (e =? 0)%N eqn:D; cbn; lia.
Qed.
Print Assumptions C15_every_option.
Theorem C15_table_differs (nx : nx_xx) (gl : gt_lt) (cur : option N) (new : N) :
  code_expire_table nx gl cur new <> expire_allowed nx gl cur new ->
  (nx = NxXx_Nx /\ gl <> GtLt_None /\ cur = None) \/ (nx = NxXx_Xx /\ gl = GtLt_Lt /\ cur = None).
Proof. intros H. destruct nx, gl, cur; cbn in H; try done; auto; right; auto. Qed.
Print Assumptions C15_table_differs.
Example C15_every_option_case :
  code_expire_table NxXx_Xx GtLt_Lt None 7 = true /\ expire_allowed NxXx_Xx GtLt_Lt None 7 = false /\
  code_expire_table NxXx_Xx GtLt_Gt (Some 5%N) 7 = true.
Proof. vm_compute. auto. Qed.

(** ** C18, C19, C68: which texts count as numbers, and what they count as.  The code reads an optional sign and
    the longest run of digits after it, and ignores the rest; a sign alone counts as 0. *)
Definition i64_or_none (z : Z) : option Z := if is_i64 z then Some z else None.
Lemma atoi_loop_value sgn ds rest a n : (sgn = 1 \/ sgn = -1)%Z -> (0 <= a)%Z -> Forall a_digit ds ->
  match rest with [] => True | b :: _ => ~ a_digit b end ->
  atoi_loop sgn (i64_or_none (sgn * a)) n (ds ++ rest) =
    (i64_or_none (sgn * fold_left (fun a b => (10 * a + (Z.of_N (Byte.to_N b) - 48))%Z) ds a), (n + length ds)%nat).
Proof.
  intros Hs Ha F R. revert a n Ha; induction ds as [|b ds IH]; intros a n Ha.
  - cbn [app fold_left length]. rewrite Nat.add_0_r. apply atoi_loop_stop. destruct rest as [|b rest]; [done|].
    cbn. destruct (is_digit b) eqn:E; [|done]. by apply byte_digit_digit in E.
  - inversion F as [|? ? Hb F']; subst. cbn [app atoi_loop fold_left length]. rewrite (byte_digit_value b Hb).
    replace (atoi_digit sgn (i64_or_none (sgn * a)) (Z.of_N (Byte.to_N b) - 48))
      with (i64_or_none (sgn * (10 * a + (Z.of_N (Byte.to_N b) - 48)))).
    { rewrite IH; [f_equal; lia|done|]. unfold a_digit in Hb. lia. }
    unfold a_digit in Hb. clear - Hs Ha Hb. generalize (Z.of_N (Byte.to_N b) - 48)%Z (ltac:(lia) : (0 <= Z.of_N (Byte.to_N b) - 48 <= 9)%Z).
    intros c Hc. unfold i64_or_none, atoi_digit, checked_i64, is_i64, i64_min, i64_max, z_two63.
    destruct Hs as [-> | ->]; repeat case_match; simplify_eq; try done; try lia; f_equal; lia.
Qed.
Lemma reads_as_unique t z z' : reads_as t z -> reads_as t z' -> z = z'.
Proof.
  intros (s1 & d1 & r1 & -> & F1 & R1 & C1) (s2 & d2 & r2 & E & F2 & R2 & C2).
  assert (H : s1 = s2 /\ d1 = d2).
  { destruct C1 as [(-> & N1 & _)|[(-> & _)|(-> & _)]], C2 as [(-> & N2 & _)|[(-> & _)|(-> & _)]]; cbn [app] in E; try done.
    - split; [done|]. by eapply digits_unique.
    - destruct d1; [done|]. injection E as -> _. inversion F1 as [|? ? H _]; subst. by destruct (digit_no_sign _ H).
    - destruct d1; [done|]. injection E as -> _. inversion F1 as [|? ? H _]; subst. by destruct (digit_no_sign _ H).
    - destruct d2; [done|]. injection E as <- _. inversion F2 as [|? ? H _]; subst. by destruct (digit_no_sign _ H).
    - injection E as E. split; [done|]. by eapply digits_unique.
    - destruct d2; [done|]. injection E as <- _. inversion F2 as [|? ? H _]; subst. by destruct (digit_no_sign _ H).
    - injection E as E. split; [done|]. by eapply digits_unique. }
  destruct H as [-> ->].
  destruct C1 as [(-> & _ & ->)|[(-> & ->)|(-> & ->)]], C2 as [(? & _ & ->)|[(? & ->)|(? & ->)]]; done.
Qed.

Lemma atoi_reads t : match atoi_i64 t with
  | Some z => reads_as t z /\ is_i64 z = true
  | None => forall z, reads_as t z -> is_i64 z = false
  end.
Proof.
  assert (U : forall sgn off t', (sgn = 1 \/ sgn = -1)%Z -> exists ds rest, t' = ds ++ rest /\ Forall a_digit ds /\
    match rest with [] => True | b :: _ => ~ a_digit b end /\
    atoi_loop sgn (Some 0%Z) off t' = (i64_or_none (sgn * digits_value ds), (off + length ds)%nat)).
  { intros sgn off t' Hs. destruct (split_digits t') as (ds & rest & -> & F & R). exists ds, rest.
    split; [done|]. split; [done|]. split; [done|].
    pose proof (atoi_loop_value sgn ds rest 0 off Hs ltac:(lia) F R) as H. rewrite Z.mul_0_r in H. exact H. }
  destruct t as [|b t].
  { cbn. intros z (sign & ds & rest & E & F & R & C). symmetry in E. apply app_nil in E as [-> E]. apply app_nil in E as [-> ->].
    by destruct C as [(_ & N & _)|[(N & _)|(N & _)]]. }
  unfold atoi_i64. destruct (byte_eq_dec b x2d) as [->|N1]; [|destruct (byte_eq_dec b x2b) as [->|N2]].
  - destruct (U (-1)%Z 1%nat t ltac:(lia)) as (ds & rest & -> & F & R & ->). cbn [Nat.add].
    unfold i64_or_none. destruct (is_i64 _) eqn:I.
    + split; [|done]. exists [x2d], ds, rest. split; [done|]. split; [done|]. split; [done|]. right. right. split; [done|lia].
    + intros z (sign & ds' & rest' & E & F' & R' & C).
      destruct C as [(-> & Nd & _)|[(-> & _)|(-> & ->)]].
      * destruct ds' as [|b' ds']; [done|]. injection E as <- _. inversion F' as [|? ? H _]; subst. by destruct (digit_no_sign _ H).
      * discriminate E.
      * injection E as E. apply digits_unique in E as <-; [|done..]. replace (- digits_value ds)%Z with (-1 * digits_value ds)%Z by lia. done.
  - destruct (U 1%Z 1%nat t ltac:(lia)) as (ds & rest & -> & F & R & ->). cbn [Nat.add].
    unfold i64_or_none. destruct (is_i64 _) eqn:I.
    + split; [|done]. exists [x2b], ds, rest. split; [done|]. split; [done|]. split; [done|]. right. left. split; [done|lia].
    + intros z (sign & ds' & rest' & E & F' & R' & C).
      destruct C as [(-> & Nd & _)|[(-> & ->)|(-> & _)]].
      * destruct ds' as [|b' ds']; [done|]. injection E as <- _. inversion F' as [|? ? H _]; subst. by destruct (digit_no_sign _ H).
      * injection E as E. apply digits_unique in E as <-; [|done..]. replace (digits_value ds) with (1 * digits_value ds)%Z by lia. done.
      * discriminate E.
  - destruct (U 1%Z 0%nat (b :: t) ltac:(lia)) as (ds & rest & E0 & F & R & ->). cbn [Nat.add].
    destruct ds as [|b' ds].
    { cbn [length]. destruct (i64_or_none _) as [z0|]; intros z (sign & ds' & rest' & E & F' & R' & C);
        (destruct C as [(-> & Nd & _)|[(-> & _)|(-> & _)]];
         [|injection E as -> _; done|injection E as -> _; done]);
        cbn in E0; subst rest; (destruct ds' as [|b' ds']; [done|]); injection E as -> _; by inversion F'; subst. }
    cbn [length]. unfold i64_or_none. destruct (is_i64 _) eqn:I.
    + split; [|done]. exists [], (b' :: ds), rest. split; [done|]. split; [done|]. split; [done|]. left. split; [done|]. split; [done|lia].
    + intros z (sign & ds' & rest' & E & F' & R' & C).
      destruct C as [(-> & Nd & ->)|[(-> & _)|(-> & _)]].
      * cbn [app] in E. rewrite E0 in E. change (b' :: ds) with (b' :: ds) in E.
        apply (digits_unique (b' :: ds) ds') in E as <-; [|done..]. replace (digits_value (b' :: ds)) with (1 * digits_value (b' :: ds))%Z by lia. done.
      * injection E as -> _. done.
      * injection E as -> _. done.
Qed.

Theorem C19_every_text (now : N) (k t : bytes) (n : Z) (e : N) (d : dict) :
  view now d k = Some (DBytes t, e) \/ view now d k = Some (DString t, e) ->
  let '(d', r, _) := wapply now (WIncr k n) d in
  (forall z, reads_as t z -> (- 2 ^ 63 <= z < 2 ^ 63)%Z ->
     r = OOk (PInt (as_i64 (z + n))) /\ contents d' k = Some (DInteger (as_i64 (z + n)), e)) /\
  ((forall z, reads_as t z -> ~ (- 2 ^ 63 <= z < 2 ^ 63)%Z) ->
     r = OErr ENotInt /\ same_contents d d').
Proof.
  intros V. destruct (wapply now (WIncr k n) d) as [[d' r] u] eqn:E.
  pose proof E as E'. cbn [wapply] in E. unfold no_exp in E.
  destruct (incr_apply now k n d) as [d1 r1] eqn:I. injection E as <- <- <-.
  destruct (incr_spec _ _ _ _ _ _ I) as (O & H2).
  assert (H : match atoi_i64 t with
    | Some z => r1 = OOk (wrap_i64 (z + n)) /\ contents d1 k = Some (DInteger (wrap_i64 (z + n)), e)
    | None => r1 = OErr ENotInt /\ contents d1 k = contents d k end).
  { destruct V as [V|V]; rewrite V in H2; cbn in H2; by destruct (atoi_i64 t). }
  assert (W : forall z, wrap_i64 z = as_i64 z) by (intros z; unfold as_i64, wrap_i64, z_two63, z_two64; cbn; lia).
  pose proof (atoi_reads t) as A. destruct (atoi_i64 t) as [z0|].
  - destruct H as [-> H], A as [A1 A2]. split.
    + intros z Hz B. rewrite (reads_as_unique _ _ _ Hz A1). cbn [outcome_map]. rewrite W in *. done.
    + intros Hn. exfalso. apply (Hn z0 A1). unfold is_i64, i64_min, i64_max, z_two63 in A2. lia.
  - destruct H as [-> H]. split.
    + intros z Hz B. specialize (A z Hz). unfold is_i64, i64_min, i64_max, z_two63 in A. lia.
    + intros _. split; [done|]. exact (wapply_error_same _ _ _ _ _ _ E').
Qed.
Print Assumptions C19_every_text.
Theorem C18_every_integer (now : N) (k : bytes) (z n : Z) (e : N) (d : dict) :
  view now d k = Some (DInteger z, e) ->
  let '(d', r, _) := wapply now (WIncr k n) d in
  r = OOk (PInt (as_i64 (z + n))) /\ contents d' k = Some (DInteger (as_i64 (z + n)), e).
Proof.
  intros V. cbn [wapply]. unfold no_exp. destruct (incr_apply now k n d) as [d1 r1] eqn:I. cbn [fst snd].
  destruct (incr_spec _ _ _ _ _ _ I) as (_ & H2). rewrite V in H2. cbn in H2. destruct H2 as [-> ->].
  replace (wrap_i64 (z + n)) with (as_i64 (z + n)) by (unfold as_i64, wrap_i64, z_two63, z_two64; cbn; lia). done.
Qed.
Print Assumptions C18_every_integer.
Example C19_every_text_case :
  reads_as (bs "12abc") 12 /\ reads_as (bs "-") 0 /\ (forall z, ~ reads_as (bs " 1") z) /\
  reads_as (bs "+9223372036854775808") (2 ^ 63).
Proof.
  split; [|split; [|split]].
  - exists [], (bs "12"), (bs "abc"). split; [done|]. split; [|split; [unfold a_digit; cbn; lia|by left]].
    cbn. repeat (constructor; [unfold a_digit; cbn; lia|]). constructor.
  - exists (bs "-"), [], []. split; [done|]. split; [constructor|]. split; [done|]. right. right. done.
  - intros z (s & ds & rest & E & F & R & C). destruct C as [(-> & N & _)|[(-> & _)|(-> & _)]]; [|discriminate E|discriminate E].
    destruct ds as [|b ds]; [done|]. injection E as <- _. inversion F as [|? ? H _]; subst. unfold a_digit in H. cbn in H. lia.
  - exists (bs "+"), (bs "9223372036854775808"), []. split; [done|]. split; [|split; [done|]].
    + cbn. repeat (constructor; [unfold a_digit; cbn; lia|]). constructor.
    + right. left. split; [done|]. by vm_compute.
Qed.

(** HINCRBY reads the field in the same way. *)
Theorem C68_every_field (now : N) (k f : bytes) (n : Z) (d : dict) (e : N) (m : gmap bytes scalar) (x : scalar) :
  lives now e -> contents d k = Some (DKvp m, e) -> m !! f = Some x ->
  let '(d', r, _) := wapply now (WKvpIncr k f n) d in
  let done z := r = OOk (PInt (as_i64 (z + n))) /\ contents d' k = Some (DKvp (<[f := SInteger (as_i64 (z + n))]> m), e) in
  match x with
  | SInteger z => done z
  | SBytes t | SString t =>
      (forall z, reads_as t z -> (- 2 ^ 63 <= z < 2 ^ 63)%Z -> done z) /\
      ((forall z, reads_as t z -> ~ (- 2 ^ 63 <= z < 2 ^ 63)%Z) -> r = OErr ENotInt /\ contents d' k = contents d k)
  | _ => (exists er, r = OErr er) /\ contents d' k = contents d k
  end.
Proof.
  intros L C M. pose proof (hash_sim k horder_default now (HIncr f n) d e (Some m) L (fun H => ltac:(discriminate H)) C) as (S1 & S2 & _).
  cbn [hash_cmd flat_cmd hash_step] in S1, S2.
  destruct (wapply now (WKvpIncr k f n) d) as [[d' r] u]. cbn [fst snd] in *. change (default ∅ (Some m)) with m in *. rewrite M in S1, S2.
  assert (T : forall t, (x = SBytes t \/ x = SString t) ->
    (forall z, reads_as t z -> (- 2 ^ 63 <= z < 2 ^ 63)%Z ->
       r = OOk (PInt (as_i64 (z + n))) /\ contents d' k = Some (DKvp (<[f := SInteger (as_i64 (z + n))]> m), e)) /\
    ((forall z, reads_as t z -> ~ (- 2 ^ 63 <= z < 2 ^ 63)%Z) -> r = OErr ENotInt /\ contents d' k = contents d k)).
  { intros t Ht. assert (RI : read_int x = match atoi_i64 t with Some z => inl z | None => inr ENotInt end).
    { destruct Ht as [-> | ->]; unfold read_int; cbn; by destruct (atoi_i64 t). }
    rewrite RI in S1, S2. pose proof (atoi_reads t) as A. destruct (atoi_i64 t) as [z0|]; cbn [fst snd] in *.
    - destruct A as [A1 A2]. split.
      + intros z Hz B. rewrite (reads_as_unique _ _ _ Hz A1). done.
      + intros Hn. exfalso. apply (Hn z0 A1). unfold is_i64, i64_min, i64_max, z_two63 in A2. lia.
    - split.
      + intros z Hz B. specialize (A z Hz). unfold is_i64, i64_min, i64_max, z_two63 in A. lia.
      + intros _. split; [done|]. by rewrite S1, C. }
  destruct x; try (apply T; by left); try (apply T; by right).
  all: unfold read_int in S1, S2; cbn in S1, S2; try done.
  all: split; [eauto|by rewrite S1, C].
Qed.
Print Assumptions C68_every_field.
Example C68_every_field_case :
  contents (Dict 0 {[bs "h" := Value (DKvp {[bs "f" := SBytes (bs "12abc")]}) 0 0]}) (bs "h") = Some (DKvp {[bs "f" := SBytes (bs "12abc")]}, 0%N) /\
  snd (fst (wapply 0 (WKvpIncr (bs "h") (bs "f") 1) (Dict 0 {[bs "h" := Value (DKvp {[bs "f" := SBytes (bs "12abc")]}) 0 0]}))) = OOk (PInt 13).
Proof. split; vm_compute; reflexivity. Qed.

(** ** C32: ZADD with every combination of options: the table of the code. *)
Definition code_zadd_table (nx : nx_xx) (gl : gt_lt) (old : option f64) (new : f64) : bool :=
  match nx, gl, old with
  | NxXx_Nx, GtLt_None, None => true
  | NxXx_Nx, _, _ => false
  | NxXx_Xx, _, None => false
  | NxXx_None, GtLt_None, None => true
  | NxXx_None, _, None => false
  | _, GtLt_None, Some _ => true
  | _, GtLt_Gt, Some s => f64_lt s new
  | _, GtLt_Lt, Some s => f64_lt new s
  end.
Definition code_zadd_one (nx : nx_xx) (gl : gt_lt) (p : gmap bytes f64 * nat) (n : node) : gmap bytes f64 * nat :=
  if code_zadd_table nx gl (p.1 !! n_key n) (n_score n) then (<[n_key n := n_score n]> p.1, S p.2) else p.
Lemma f64_gt_lt x y : f64_gt x y = f64_lt y x.
Proof.
  unfold f64_gt, f64_lt. rewrite !f64_cmp_key. destruct (fkey x) as [a|], (fkey y) as [b|]; try done.
  destruct (lex3 a b) eqn:E.
  - apply lex3_eq in E as ->. by rewrite (proj2 (lex3_eq b b) eq_refl).
  - rewrite (proj2 (lex3_gt b a) E). done.
  - by rewrite (proj1 (lex3_gt a b) E).
Qed.
Lemma zadd_can_table nx gl m n :
  zadd_can nx gl (nodes_of m !! n_key n) n = code_zadd_table nx gl (m !! n_key n) (n_score n).
Proof.
  rewrite nodes_of_lookup. unfold zadd_can, code_zadd_table.
  destruct nx, gl, (m !! n_key n) as [s|]; cbn; try done; by rewrite ?f64_gt_lt.
Qed.
Lemma zadd_loop_table nx gl ns m u : no_nans m -> Forall (fun n => not_nan (n_score n)) ns ->
  let p := fold_left (code_zadd_one nx gl) ns (m, u) in
  zadd_loop nx gl false (zrep m u) ns = (zrep p.1 p.2, false) /\ no_nans p.1.
Proof.
  intros Hm Hns. revert m u Hm; induction Hns as [|n ns Hn _ IH]; intros m u Hm; [done|].
  cbn [zadd_loop fold_left]. rewrite zadd_node_rep by done. rewrite zadd_can_table.
  assert (E : code_zadd_one nx gl (m, u) n =
    if code_zadd_table nx gl (m !! n_key n) (n_score n) then (<[n_key n := n_score n]> m, S u) else (m, u)) by done.
  rewrite E. destruct (code_zadd_table _ _ _ _); [|by apply IH].
  apply IH. by apply no_nans_insert.
Qed.
Theorem C32_every_option (now : N) (k : bytes) (ns : list node) (nx : nx_xx) (gl : gt_lt) (d : dict) (e : N)
    (s : option (gmap bytes f64)) :
  lives now e -> (s = None -> e = 0%N) -> contents d k = stored zset_data e s ->
  (forall m, s = Some m -> no_nans m) -> Forall (fun n => not_nan (n_score n)) ns ->
  let '(d', r, _) := wapply now (WZAdd k ns nx gl false) d in
  let m := default ∅ s in
  let '(m', written) := fold_left (code_zadd_one nx gl) ns (m, O) in
  contents d' k = Some (zset_data m', e) /\
  r = OOk (PZadd (ZaddResp (size m) (size m') written)).
Proof.
  intros L N C Hm Hns.
  assert (Hd : no_nans (default ∅ s)) by (destruct s; [by apply Hm|apply no_nans_empty]).
  destruct (goi_stored zset_data ∅ _ _ _ _ _ L N C) as (w & d2 & GI & DI & XI & CI).
  cbn [wapply]. cmd_unfold.
  unfold zset_data at 1 in GI. change (nodes_of ∅) with (∅ : gmap bytes node) in GI. rewrite listing_empty in GI.
  rewrite GI, DI. unfold zset_data.
  destruct (zadd_loop_table nx gl ns (default ∅ s) 0 Hd Hns) as [Z1 Z2].
  destruct (fold_left _ _ _) as [m' w']. cbn [fst snd] in *. unfold zrep in Z1. rewrite Z1.
  cbn [fst snd outcome_map no_exp z_hash z_value z_upd].
  rewrite contents_put. unfold content. cbn [with_data v_data v_exp]. by rewrite XI, !nodes_of_size.
Qed.
Print Assumptions C32_every_option.
Theorem C32_table_differs (nx : nx_xx) (gl : gt_lt) (old : option f64) (new : f64) :
  code_zadd_table nx gl old new <> zadd_allowed nx gl old new -> nx <> NxXx_Xx /\ gl <> GtLt_None /\ old = None.
Proof. intros H. destruct nx, gl, old; cbn in H; try done. Qed.
Print Assumptions C32_table_differs.
Example C32_every_option_case :
  fold_left (code_zadd_one NxXx_None GtLt_Gt) [Node (f64_of_Z 9) (bs "b"); Node (f64_of_Z 2) (bs "a")] ({[bs "a" := f64_of_Z 1]}, O)
    = ({[bs "a" := f64_of_Z 2]}, 1%nat).
Proof. apply (bool_decide_eq_true_1 _). vm_compute. reflexivity. Qed.

(** ** C42: the frequency after an access, whatever the two instants: the minutes are counted modulo 65536, and
    a counter that seems to have gone back resets the frequency to 1. *)
Theorem C42_any_instants (ho : horder) (t0 t1 t : N) (r0 r1 : rreq) (b : db) (h h' : list (N * cmd))
    (k : bytes) (x : data) (e f : N) :
  accessing k r0 -> accessing k r1 -> db_view t0 b k = Some (x, e) ->
  quiet k h -> lives t1 e -> quiet k h' ->
  let b1 := fst (db_run ho h (fst (db_read ho t0 r0 b))) in
  let b2 := fst (db_run ho h' (fst (db_read ho t1 r1 b1))) in
  let m0 := ((t0 / 60000) mod 65536)%N in
  let m1 := ((t1 / 60000) mod 65536)%N in
  snd (db_read ho t (RVisitTimes k) b1) = OOk (POptN (Some f)) ->
  snd (db_read ho t (RVisitTimes k) b2) =
    OOk (POptN (Some (if (m1 <? m0)%N then 1 else N.min 65535 ((f - (m1 - m0)) + 1))%N)).
Proof.
  intros [K0 S0] [K1 S1] V Q L Q' b1 b2 m0 m1 F. apply view_raw in V as (v & R & AL & _ & X).
  assert (R1 : db_raw b1 k = Some (touch t0 v)).
  { unfold b1. rewrite db_run_quiet by done. subst k. by apply db_read_access. }
  assert (R2 : db_raw b2 k = Some (touch t1 (touch t0 v))).
  { unfold b2. rewrite db_run_quiet by done. rewrite <- K1. apply db_read_access; [done|by rewrite K1|].
    apply alive_lives. cbn. by rewrite X. }
  rewrite db_read_times, R1 in F. injection F as F. rewrite db_read_times, R2. cbn [option_map fmap option_fmap].
  change (v_log (touch t1 (touch t0 v))) with (update_visit_log t1 (update_visit_log t0 (v_log v))).
  change (v_log (touch t0 v)) with (update_visit_log t0 (v_log v)) in F.
  rewrite update_times. unfold step_times. rewrite update_desc, F, !get_min_mod. fold m0 m1.
  assert (B : (m0 < 65536 /\ m1 < 65536)%N) by (split; apply N.mod_lt; done).
  assert (Bf : (f <= 65535)%N) by (rewrite <- F; pose proof (times_le (update_visit_log t0 (v_log v))); lia).
  clearbody m0 m1. unfold max_visit_times. do 3 f_equal. destruct (N.ltb_spec m1 m0) as [C|C].
  - replace (f <? sub_u64 m1 m0)%N with true; [done|]. symmetry. apply N.ltb_lt.
    unfold sub_u64, two64. change (2 ^ 64)%N with 18446744073709551616%N. rewrite (N.mod_small m0) by lia.
    rewrite N.mod_small by lia. lia.
  - rewrite sub_u64_small by lia. destruct (f <? m1 - m0)%N eqn:E1; [cbn; lia|].
    destruct (f - (m1 - m0) <? 65535)%N eqn:E2; lia.
Qed.
Print Assumptions C42_any_instants.
Example C42_any_instants_case :
  ((65536 * 60000 / 60000) mod 65536 <? (65535 * 60000 / 60000) mod 65536)%N = true /\
  ((65537 * 60000 / 60000) mod 65536 = (60000 / 60000) mod 65536)%N.
Proof. vm_compute. auto. Qed.

(** ** C70: every history.  Each write of a slot takes the next number; those that panic send nothing. *)
Fixpoint slot_outcomes (i : N) (h : list (N * cmd)) (rs : list (outcome resp)) : list (wreq * bool) :=
  match h, rs with
  | (_, CWrite w) :: h', r :: rs' =>
      let p := (w, match r with OPanic => false | _ => true end) in
      if (get_slot (wkey w) =? i)%N then p :: slot_outcomes i h' rs' else slot_outcomes i h' rs'
  | _ :: h', _ :: rs' => slot_outcomes i h' rs'
  | _, _ => []
  end.
Theorem C70_any_history (ho : horder) (h : list (N * cmd)) (b : db) (i : N) :
  (write_id (b i) < 2 ^ 64)%N ->
  let ws := slot_outcomes i h (snd (db_run ho h b)) in
  List.filter (fun m => (fm_slot m =? i)%N) (db_forwarded ho h b) =
    map snd (List.filter fst (zip_with (fun id p => (snd p, FwdMsg id i (to_write_cmd (fst p))))
      (ids_from (write_id (b i)) (length ws)) ws)) /\
  map fst ws = writes_in i h /\
  write_id (fst (db_run ho h b) i) = ((write_id (b i) + N.of_nat (length ws)) mod 2 ^ 64)%N.
Proof.
  revert b; induction h as [|[now c] h IH]; intros b Hb.
  - cbn. split; [done|]. split; [done|]. rewrite N.add_0_r, N.mod_small; done.
  - destruct c as [w|r]; cbn [db_forwarded writes_in db_run db_cmd slot_outcomes].
    + destruct (db_write now w b) as [b1 o] eqn:E.
      specialize (IH b1).
      destruct (db_run ho h b1) as [b2 rs] eqn:E2. cbn [snd fst slot_outcomes] in *.
      assert (B1 : b1 = fst (db_write now w b)) by (by rewrite E).
      assert (O : o = snd (db_write now w b)) by (by rewrite E).
      destruct (db_write_unfold now w b) as [U1 U2]. rewrite U1 in B1. rewrite U2 in O.
      pose proof (slot_write_seq (get_slot (wkey w)) now w (b (get_slot (wkey w)))) as Q.
      destruct (slot_write _ _ _ _) as [d' o']. cbn [fst snd] in *. subst o'.
      destruct Q as [Q1 Q2]. rewrite filter_app.
      destruct (N.eqb_spec (get_slot (wkey w)) i) as [Ei|Ei].
      * subst i. assert (W : write_id (b1 (get_slot (wkey w))) = wrap_u64 (write_id (b (get_slot (wkey w))) + 1)).
        { rewrite B1, db_set_same. done. }
        rewrite W in IH. destruct IH as (IH1 & IH2 & IH3); [unfold wrap_u64, two64; lia|].
        rewrite IH1, IH3. cbn [length ids_from zip_with map fst snd]. unfold wrap_u64, two64.
        split; [|split; [by f_equal|rewrite N.add_mod_idemp_l by lia; f_equal; lia]].
        rewrite Q2. destruct (wo_res o); cbn [List.filter fm_slot fst map snd app]; rewrite ?N.eqb_refl; done.
      * assert (W : b1 i = b i). { rewrite B1. by rewrite db_set_other by congruence. }
        rewrite W in IH. destruct IH as (IH1 & IH2 & IH3); [done|].
        split; [|done]. rewrite Q2. rewrite IH1.
        destruct (wo_res o); cbn [List.filter fm_slot]; try done;
          by rewrite (proj2 (N.eqb_neq _ _) Ei).
    + destruct (db_read ho now r b) as [b1 o] eqn:E. cbn [fst].
      assert (W : write_id (b1 i) = write_id (b i)).
      { replace b1 with (fst (db_read ho now r b)) by (by rewrite E). apply db_read_write_id. }
      specialize (IH b1). rewrite W in IH.
      destruct (db_run ho h b1) as [b2 rs] eqn:E2. cbn [snd fst slot_outcomes] in *. by apply IH.
Qed.
Print Assumptions C70_any_history.
Example C70_any_history_case :
  let h := [(1%N, CWrite (WZAdd (bs "z") [Node f64_zero (bs "a")] NxXx_None GtLt_None false));
            (2%N, CWrite (WZAdd (bs "z") [Node S754_nan (bs "b")] NxXx_None GtLt_None false));
            (3%N, CWrite (WZRemove (bs "z") [bs "a"]))] in
  map snd (slot_outcomes (get_slot (bs "z")) h (snd (db_run horder_default h db_empty))) = [true; false; true].
Proof. vm_compute. reflexivity. Qed.
