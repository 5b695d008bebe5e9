(** Lemmas about byte strings, decimal text and fixed-width arithmetic. *)
From Coq Require Export ZifyBool ZifyNat ZifyN.
From Verif Require Export Bytes.

Ltac Zify.zify_post_hook ::= Z.div_mod_to_equations.

(** ** Bytes as numbers *)
Lemma to_N_lt b : (Byte.to_N b < 256)%N.
Proof. destruct b; cbn; lia. Qed.

Lemma byte_of_N_to_N b : byte_of_N (Byte.to_N b) = b.
Proof.
  unfold byte_of_N. rewrite N.mod_small by apply to_N_lt. by rewrite Byte.of_to_N.
Qed.

Lemma of_N_some n : (n < 256)%N -> exists b, Byte.of_N n = Some b.
Proof.
  intros H. destruct (Byte.of_N n) eqn:E; [by eexists|].
  apply Byte.of_N_None_iff in E. lia.
Qed.

Lemma to_N_byte_of_N n : Byte.to_N (byte_of_N n) = (n mod 256)%N.
Proof.
  unfold byte_of_N. destruct (of_N_some (n mod 256)) as [b E]; [lia|].
  rewrite E. by apply Byte.to_of_N.
Qed.

Lemma to_N_inj a b : Byte.to_N a = Byte.to_N b -> a = b.
Proof. intros H. rewrite <- (byte_of_N_to_N a), <- (byte_of_N_to_N b). congruence. Qed.

(** ** Wrapping *)
Lemma wrap_i64_id z : is_i64 z = true -> wrap_i64 z = z.
Proof. unfold is_i64, wrap_i64, i64_min, i64_max, z_two63, z_two64. intros H. lia. Qed.

Lemma wrap_i64_range z : is_i64 (wrap_i64 z) = true.
Proof. unfold is_i64, wrap_i64, i64_min, i64_max, z_two63, z_two64. lia. Qed.

Lemma wrap_i64_add a b : wrap_i64 (wrap_i64 a + b) = wrap_i64 (a + b).
Proof.
  unfold wrap_i64, z_two63, z_two64.
  replace ((a + 2 ^ 63) mod 2 ^ 64 - 2 ^ 63 + b + 2 ^ 63)%Z with ((a + 2 ^ 63) mod 2 ^ 64 + b)%Z by ring.
  rewrite Z.add_mod_idemp_l by done.
  replace (a + 2 ^ 63 + b)%Z with (a + b + 2 ^ 63)%Z by ring. done.
Qed.

(** ** Decimal text *)
Lemma byte_digit_digit n : byte_digit (digit n) = Some (Z.of_N (n mod 10)).
Proof.
  unfold byte_digit, digit. rewrite to_N_byte_of_N.
  rewrite N.mod_small by lia.
  destruct ((48 <=? 48 + n mod 10)%N && (48 + n mod 10 <=? 57)%N) eqn:E; [f_equal|]; lia.
Qed.

Lemma show_digits_length_pos fuel n : (0 < length (show_digits (S fuel) n))%nat.
Proof. cbn [show_digits]. destruct (n <? 10)%N; cbn; [lia|]. rewrite app_length; cbn; lia. Qed.

(** Every byte of a printed number is a digit. *)
Definition is_digit (b : byte) : bool := match byte_digit b with Some _ => true | None => false end.

Lemma show_digits_all fuel n : Forall (fun b => is_digit b = true) (show_digits fuel n).
Proof.
  revert n; induction fuel as [|fuel IH]; intros n; cbn [show_digits]; [constructor|].
  assert (H : is_digit (digit n) = true) by (unfold is_digit; by rewrite byte_digit_digit).
  destruct (n <? 10)%N; [by repeat constructor|].
  apply Forall_app. split; [apply IH|by repeat constructor].
Qed.

Lemma checked_i64_true z : is_i64 z = true -> checked_i64 z = Some z.
Proof. unfold checked_i64. by intros ->. Qed.

Lemma atoi_loop_show fuel n sgn off rest :
  (n < 2 ^ N.of_nat fuel)%N -> (sgn = 1 \/ sgn = -1)%Z -> is_i64 (sgn * Z.of_N n) = true ->
  atoi_loop sgn (Some 0%Z) off (show_digits fuel n ++ rest) =
  atoi_loop sgn (Some (sgn * Z.of_N n)%Z) (off + length (show_digits fuel n)) rest.
Proof.
  revert n off rest; induction fuel as [|fuel IH]; intros n off rest Hn Hs Hr.
  - assert (n = 0)%N by (cbn in Hn; lia). subst. cbn [show_digits app length]. f_equal; [f_equal|]; lia.
  - cbn [show_digits]. destruct (n <? 10)%N eqn:E.
    + cbn [app atoi_loop length]. rewrite byte_digit_digit. cbn [atoi_digit].
      rewrite checked_i64_true by done.
      rewrite checked_i64_true.
      * f_equal; [f_equal|]; [|lia]. rewrite N.mod_small by lia. lia.
      * rewrite N.mod_small by lia. rewrite Z.add_0_l. done.
    + rewrite <- app_assoc. rewrite IH.
      * cbn [app atoi_loop]. rewrite byte_digit_digit. cbn [atoi_digit].
        assert (R1 : is_i64 (sgn * Z.of_N (n / 10) * 10) = true).
        { unfold is_i64, i64_min, i64_max, z_two63 in *. lia. }
        rewrite (checked_i64_true _ R1).
        replace (sgn * Z.of_N (n / 10) * 10 + sgn * Z.of_N (n mod 10))%Z with (sgn * Z.of_N n)%Z by lia.
        rewrite (checked_i64_true _ Hr). f_equal. rewrite app_length. cbn [length]. lia.
      * rewrite Nat2N.inj_succ, N.pow_succ_r' in Hn. lia.
      * done.
      * unfold is_i64, i64_min, i64_max, z_two63 in *. lia.
Qed.

Lemma show_N_fuel n : (n < 2 ^ N.of_nat (S (N.to_nat (N.log2 n))))%N.
Proof.
  rewrite Nat2N.inj_succ, N2Nat.id. destruct (N.eq_dec n 0) as [->|H]; [cbn; lia|].
  apply N.log2_spec. lia.
Qed.

Definition no_digit_head (rest : bytes) : bool :=
  match rest with [] => true | b :: _ => negb (is_digit b) end.

Lemma atoi_loop_stop sgn acc off rest :
  no_digit_head rest = true -> atoi_loop sgn acc off rest = (acc, off).
Proof.
  destruct rest as [|b rest]; cbn; [done|]. unfold is_digit. by destruct (byte_digit b).
Qed.

Lemma show_digits_head fuel n b rest :
  show_digits fuel n = b :: rest -> is_digit b = true.
Proof.
  intros H. pose proof (show_digits_all fuel n) as F. rewrite H in F. by inversion F.
Qed.

Lemma show_N_cons n : exists b rest, show_N n = b :: rest /\ is_digit b = true.
Proof.
  unfold show_N. pose proof (show_digits_length_pos (N.to_nat (N.log2 n)) n) as H.
  destruct (show_digits (S (N.to_nat (N.log2 n))) n) as [|b rest] eqn:E; [cbn in H; lia|].
  exists b, rest. split; [done|]. by eapply show_digits_head.
Qed.

Lemma atoi_unsigned b t : b <> x2d -> b <> x2b ->
  atoi_i64 (b :: t) = match atoi_loop 1 (Some 0%Z) 0 (b :: t) with (Some z, S _) => Some z | _ => None end.
Proof.
  intros N1 N2. unfold atoi_i64.
  destruct (byte_eq_dec b x2d); [done|]. by destruct (byte_eq_dec b x2b).
Qed.

(** Printing then parsing gives the number back, whatever non-digit text follows. *)
Lemma atoi_show_Z z rest :
  is_i64 z = true -> no_digit_head rest = true -> atoi_i64 (show_Z z ++ rest) = Some z.
Proof.
  intros Hz Hr. unfold show_Z. destruct (z <? 0)%Z eqn:E.
  - cbn [app]. unfold atoi_i64. destruct (byte_eq_dec x2d x2d); [|done].
    unfold show_N at 1. rewrite atoi_loop_show.
    + rewrite (atoi_loop_stop _ _ _ _ Hr).
      destruct (1 + _)%nat eqn:L; [lia|]. f_equal. lia.
    + apply show_N_fuel.
    + lia.
    + unfold is_i64, i64_min, i64_max, z_two63 in *. lia.
  - destruct (show_N_cons (Z.to_N z)) as (b & r & Hb & Hd).
    assert (N1 : b <> x2d) by (intros ->; cbn in Hd; done).
    assert (N2 : b <> x2b) by (intros ->; cbn in Hd; done).
    rewrite Hb. cbn [app]. rewrite (atoi_unsigned _ _ N1 N2).
    change (b :: r ++ rest) with ((b :: r) ++ rest). rewrite <- Hb.
    unfold show_N at 1. rewrite atoi_loop_show.
    + rewrite (atoi_loop_stop _ _ _ _ Hr).
      pose proof (show_digits_length_pos (N.to_nat (N.log2 (Z.to_N z))) (Z.to_N z)).
      destruct (0 + _)%nat eqn:L; [lia|]. f_equal. lia.
    + apply show_N_fuel.
    + lia.
    + unfold is_i64, i64_min, i64_max, z_two63 in *. lia.
Qed.
