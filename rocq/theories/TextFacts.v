(** Reading numbers. *)
From Verif Require Export SpecText Text.
From Verif Require Import BytesFacts.

Lemma byte_digit_digit b : a_digit b <-> is_digit b = true.
Proof.
  unfold a_digit, is_digit, byte_digit. destruct ((48 <=? Byte.to_N b)%N && (Byte.to_N b <=? 57)%N) eqn:E; split; intros; try done; lia.
Qed.
Lemma byte_digit_value b : a_digit b -> byte_digit b = Some (Z.of_N (Byte.to_N b) - 48)%Z.
Proof.
  unfold a_digit, byte_digit. intros H. replace ((48 <=? Byte.to_N b)%N && (Byte.to_N b <=? 57)%N) with true by lia.
  f_equal. lia.
Qed.
Lemma digits_from ds a : (0 <= a)%Z -> Forall a_digit ds ->
  (a <= fold_left (fun a b => (10 * a + (Z.of_N (Byte.to_N b) - 48))%Z) ds a)%Z.
Proof.
  revert a; induction ds as [|b ds IH]; intros a Ha F; cbn [fold_left]; [lia|].
  inversion F as [|? ? Hb F']; subst. unfold a_digit in Hb. specialize (IH (10 * a + (Z.of_N (Byte.to_N b) - 48))%Z ltac:(lia) F'). lia.
Qed.

Lemma split_digits t : exists ds rest, t = ds ++ rest /\ Forall a_digit ds /\ match rest with [] => True | b :: _ => ~ a_digit b end.
Proof.
  induction t as [|b t (ds & rest & -> & F & R)]; [by exists [], []|].
  destruct (is_digit b) eqn:E.
  - exists (b :: ds), rest. split; [done|]. split; [|done]. constructor; [by apply byte_digit_digit|done].
  - exists [], (b :: ds ++ rest). split; [done|]. split; [constructor|]. rewrite byte_digit_digit, E. done.
Qed.

Lemma digits_unique (ds ds' rest rest' : bytes) : ds ++ rest = ds' ++ rest' -> Forall a_digit ds -> Forall a_digit ds' ->
  match rest with [] => True | b :: _ => ~ a_digit b end -> match rest' with [] => True | b :: _ => ~ a_digit b end -> ds = ds'.
Proof.
  revert ds' rest rest'; induction ds as [|b ds IH]; intros ds' rest rest' E F F' R R'.
  - destruct ds' as [|b' ds']; [done|]. cbn in E. subst rest. inversion F'; subst. done.
  - destruct ds' as [|b' ds']; cbn in E; [subst rest'; inversion F; subst; done|].
    injection E as -> E. inversion F; inversion F'; subst. f_equal. by eapply IH.
Qed.
Lemma digit_no_sign b : a_digit b -> b <> x2d /\ b <> x2b.
Proof. intros Hb. split; intros ->; unfold a_digit in Hb; cbn in Hb; lia. Qed.

(** ** [str::parse::<i64>] *)
Lemma int_digits_digits (neg : bool) t acc z : int_digits neg acc t = inl z -> Forall a_digit t.
Proof.
  revert acc; induction t as [|b t IH]; intros acc; cbn [int_digits]; [constructor|].
  destruct (byte_digit b) as [d|] eqn:E; [|done]. destruct (_ && _); [|done]. intros H. constructor; [|by eapply IH].
  apply byte_digit_digit. unfold is_digit. by rewrite E.
Qed.
Lemma int_digits_value (neg : bool) ds a : (0 <= a)%Z -> Forall a_digit ds ->
  let sg := (if neg then -1 else 1)%Z in
  let v := fold_left (fun a b => (10 * a + (Z.of_N (Byte.to_N b) - 48))%Z) ds a in
  is_i64 (sg * a) = true ->
  int_digits neg (sg * a) ds = if is_i64 (sg * v) then inl (sg * v)%Z else inr (if neg then IntNegOverflow else IntPosOverflow).
Proof.
  cbn zeta. intros Ha F. revert a Ha; induction ds as [|b ds IH]; intros a Ha I; cbn [int_digits fold_left]; [by rewrite I|].
  inversion F as [|? ? Hb F']; subst. rewrite (byte_digit_value b Hb). unfold a_digit in Hb.
  set (c := (Z.of_N (Byte.to_N b) - 48)%Z). assert (Hc : (0 <= c <= 9)%Z) by lia. clearbody c.
  specialize (IH F' (10 * a + c)%Z ltac:(lia)). pose proof (digits_from ds (10 * a + c)%Z ltac:(lia) F') as M.
  set (v := fold_left _ _ _) in *. clearbody v.
  assert (E : (if neg then (if neg then -1 else 1) * a * 10 - c else (if neg then -1 else 1) * a * 10 + c)%Z = ((if neg then -1 else 1) * (10 * a + c))%Z)
    by (destruct neg; lia).
  rewrite E. destruct (is_i64 ((if neg then -1 else 1) * (10 * a + c))) eqn:I2.
  - rewrite IH by done. replace (is_i64 _ && true) with true; [done|]. unfold is_i64, i64_min, i64_max, z_two63 in *. destruct neg; lia.
  - rewrite andb_false_r. replace (is_i64 ((if neg then -1 else 1) * v)) with false; [done|].
    unfold is_i64, i64_min, i64_max, z_two63 in *. destruct neg; lia.
Qed.
Lemma parse_i64_iff t z : parse_i64 t = inl z <-> int_text z t.
Proof.
  assert (A : forall neg ds w, int_digits neg 0 ds = inl w <-> Forall a_digit ds /\ w = ((if neg then -1 else 1) * digits_value ds)%Z /\ (- 2 ^ 63 <= w < 2 ^ 63)%Z).
  { intros neg ds w. split.
    - intros H. pose proof (int_digits_digits _ _ _ _ H) as F. pose proof (int_digits_value neg ds 0 ltac:(lia) F) as V. cbn zeta in V.
      rewrite Z.mul_0_r in V. specialize (V eq_refl). rewrite H in V. change (fold_left _ ds 0%Z) with (digits_value ds) in V.
      destruct (is_i64 ((if neg then -1 else 1) * digits_value ds)) eqn:I; [|done]. injection V as ->. split; [done|]. split; [done|].
      unfold is_i64, i64_min, i64_max, z_two63 in I. lia.
    - intros (F & -> & R). pose proof (int_digits_value neg ds 0 ltac:(lia) F) as V. cbn zeta in V. rewrite Z.mul_0_r in V. rewrite (V eq_refl).
      change (fold_left _ ds 0%Z) with (digits_value ds). replace (is_i64 _) with true; [done|]. unfold is_i64, i64_min, i64_max, z_two63. lia. }
  unfold parse_i64, int_text. destruct t as [|b t].
  { split; [done|]. intros (_ & sg & ds & E & N & _). symmetry in E. apply app_nil in E as [_ ->]. done. }
  assert (D : forall sg ds, b :: t = sg ++ ds -> ds <> [] -> Forall a_digit ds -> (sg = [] -> b <> x2d /\ b <> x2b)).
  { intros sg ds E N F ->. cbn in E. destruct F as [|? ? H _]; [done|]. injection E as -> _. by apply digit_no_sign. }
  destruct (byte_eq_dec b x2b) as [->|N1]; [|destruct (byte_eq_dec b x2d) as [->|N2]].
  - destruct t as [|c t].
    { split; [done|]. intros (_ & sg & ds & E & N & F & C). destruct C as [[[->| ->] _]|[-> _]]; [by destruct (D [] ds E N F eq_refl)| |done].
      injection E as <-. done. }
    rewrite A. split.
    + intros (F & -> & R). split; [done|]. exists [x2b], (c :: t). split; [done|]. split; [done|]. split; [done|]. left. split; [by right|lia].
    + intros (R & sg & ds & E & N & F & C). destruct C as [[[->| ->] ->]|[-> _]]; [by destruct (D [] ds E N F eq_refl)| |done].
      injection E as <-. split; [done|]. split; [lia|done].
  - destruct t as [|c t].
    { split; [done|]. intros (_ & sg & ds & E & N & F & C). destruct C as [[[->| ->] _]|[-> _]]; [by destruct (D [] ds E N F eq_refl)|done|].
      injection E as <-. done. }
    rewrite A. split.
    + intros (F & -> & R). split; [done|]. exists [x2d], (c :: t). split; [done|]. split; [done|]. split; [done|]. right. split; [done|lia].
    + intros (R & sg & ds & E & N & F & C). destruct C as [[[->| ->] _]|[-> ->]]; [by destruct (D [] ds E N F eq_refl)|done|].
      injection E as <-. split; [done|]. split; [lia|done].
  - rewrite A. split.
    + intros (F & -> & R). split; [done|]. exists [], (b :: t). split; [done|]. split; [done|]. split; [done|]. left. split; [by left|lia].
    + intros (R & sg & ds & E & N & F & C). destruct C as [[[->| ->] ->]|[-> _]]; [|injection E as -> _; done|injection E as -> _; done].
      cbn in E. rewrite <- E in *. split; [done|]. split; [lia|done].
Qed.

(** ** Decimal numbers *)
Definition digits_step (a : Z) (b : byte) : Z := (10 * a + (Z.of_N (Byte.to_N b) - 48))%Z.
Lemma take_digits_run ds rest a n : Forall a_digit ds -> match rest with [] => True | b :: _ => ~ a_digit b end ->
  take_digits a n (ds ++ rest) = (Z.to_N (fold_left digits_step ds (Z.of_N a)), (n + length ds)%nat, rest).
Proof.
  intros F R. revert a n; induction F as [|b ds Hb F IH]; intros a n.
  - cbn [app fold_left length]. rewrite N2Z.id, Nat.add_0_r. destruct rest as [|b rest]; [done|]. cbn [take_digits].
    destruct (byte_digit b) eqn:E; [|done]. exfalso. apply R, byte_digit_digit. unfold is_digit. by rewrite E.
  - cbn [app take_digits fold_left length]. rewrite (byte_digit_value b Hb), IH. unfold a_digit in Hb.
    replace (Z.of_N (10 * a + Z.to_N (Z.of_N (Byte.to_N b) - 48))) with (digits_step (Z.of_N a) b) by (unfold digits_step; lia).
    by rewrite Nat.add_succ_r.
Qed.
Lemma digits_nonneg ds a : (0 <= a)%Z -> Forall a_digit ds -> (0 <= fold_left digits_step ds a)%Z.
Proof. intros A F. pose proof (digits_from ds a A F). unfold digits_step. lia. Qed.
