(** C101, C102: texts and numbers as texts. *)
From Verif Require Export SpecText Text.
From Verif Require Export SpecNumber.
From Verif Require Import BytesFacts TextFacts NumberFacts RoundFacts RequestFacts.
From Coq Require Import Reals.

(** ** C101: which byte strings are texts *)
Lemma utf8_sound n t : (length t <= n)%nat -> utf8_valid t = true -> is_utf8 t.
Proof.
  revert t; induction n as [|n IH]; intros t L U.
  { destruct t; [|cbn in L; lia]. by exists []. }
  assert (K : forall (c : N) (p r : bytes), (length r <= n)%nat -> utf8_valid r = true -> scalar_value c -> map Byte.to_N p = utf8 c -> is_utf8 (p ++ r)).
  { intros c p r Lr Ur Sc E. destruct (IH r Lr Ur) as (cs & F & M). exists (c :: cs). split; [by constructor|]. by rewrite map_app, E, M. }
  destruct t as [|a t1]; [by exists []|]. cbn [length] in L. cbn [utf8_valid] in U. unfold cont, in_range in U.
  set (A := Byte.to_N a) in *.
  destruct ((0 <=? A) && (A <=? 127))%N eqn:E1.
  { apply (K A [a] t1); [lia|done|unfold scalar_value; lia|]. cbn [map]. fold A. unfold utf8. by replace (A <? 128)%N with true by lia. }
  destruct t1 as [|b t2]; [done|]. cbn [length] in L. set (B := Byte.to_N b) in *.
  destruct ((194 <=? A) && (A <=? 223))%N eqn:E2.
  { apply andb_true_iff in U as [U1 U2]. apply (K ((A - 192) * 64 + (B - 128))%N [a; b] t2); [lia|done|unfold scalar_value; lia|].
    cbn [map]. fold A B. unfold utf8. replace (_ <? 0x80)%N with false by lia. replace (_ <? 0x800)%N with true by lia. f_equal; [lia|f_equal; lia]. }
  destruct t2 as [|c t3]; [done|]. cbn [length] in L. set (C := Byte.to_N c) in *.
  assert (K3 : (224 <= A <= 239)%N -> (128 <= B <= 191)%N -> (128 <= C <= 191)%N -> (A = 224 -> 160 <= B)%N -> (A = 237 -> B <= 159)%N -> utf8_valid t3 = true -> is_utf8 (a :: b :: c :: t3)).
  { intros HA HB HC H1 H2 U3. apply (K ((A - 224) * 4096 + (B - 128) * 64 + (C - 128))%N [a; b; c] t3); [lia|done|unfold scalar_value; lia|].
    cbn [map]. fold A B C. unfold utf8. replace (_ <? 0x80)%N with false by lia. replace (_ <? 0x800)%N with false by lia. replace (_ <? 0x10000)%N with true by lia.
    f_equal; [lia|f_equal; [lia|f_equal; lia]]. }
  destruct ((224 <=? A) && (A <=? 224))%N eqn:E3.
  { apply andb_true_iff in U as [U U3]. apply K3; try done; lia. }
  destruct ((237 <=? A) && (A <=? 237))%N eqn:E4.
  { apply andb_true_iff in U as [U U3]. apply K3; try done; lia. }
  destruct ((225 <=? A) && (A <=? 239))%N eqn:E5.
  { apply andb_true_iff in U as [U U3]. apply K3; try done; lia. }
  destruct t3 as [|d t4]; [done|]. cbn [length] in L. set (D := Byte.to_N d) in *.
  assert (K4 : (240 <= A <= 244)%N -> (128 <= B <= 191)%N -> (128 <= C <= 191)%N -> (128 <= D <= 191)%N -> (A = 240 -> 144 <= B)%N -> (A = 244 -> B <= 143)%N -> utf8_valid t4 = true -> is_utf8 (a :: b :: c :: d :: t4)).
  { intros HA HB HC HD H1 H2 U3. apply (K ((A - 240) * 262144 + (B - 128) * 4096 + (C - 128) * 64 + (D - 128))%N [a; b; c; d] t4); [lia|done|unfold scalar_value; lia|].
    cbn [map]. fold A B C D. unfold utf8. replace (_ <? 0x80)%N with false by lia. replace (_ <? 0x800)%N with false by lia. replace (_ <? 0x10000)%N with false by lia.
    f_equal; [lia|f_equal; [lia|f_equal; [lia|f_equal; lia]]]. }
  destruct ((240 <=? A) && (A <=? 240))%N eqn:E6.
  { apply andb_true_iff in U as [U U3]. apply K4; try done; lia. }
  destruct ((241 <=? A) && (A <=? 243))%N eqn:E7.
  { apply andb_true_iff in U as [U U3]. apply K4; try done; lia. }
  destruct ((244 <=? A) && (A <=? 244))%N eqn:E8; [|done].
  { apply andb_true_iff in U as [U U3]. apply K4; try done; lia. }
Qed.
Lemma utf8_complete cs : Forall scalar_value cs -> forall t, map Byte.to_N t = concat (map utf8 cs) -> utf8_valid t = true.
Proof.
  induction 1 as [|c cs S F IH]; intros t E; [by destruct t|]. cbn [map concat] in E. unfold utf8 in E at 1. unfold scalar_value in S.
  destruct (N.ltb_spec c 0x80) as [H1|H1].
  { destruct t as [|a t]; [done|]. injection E as A E. cbn [utf8_valid]. unfold in_range. rewrite A. replace (_ && _) with true by lia. by apply IH. }
  destruct (N.ltb_spec c 0x800) as [H2|H2].
  { destruct t as [|a [|b t]]; [done|done|]. injection E as A B E. cbn [utf8_valid]. unfold cont, in_range. rewrite A, B. specialize (IH t E).
    repeat (match goal with |- context [if ?b then _ else _] => let H := fresh in destruct b eqn:H end); rewrite ?IH, ?andb_true_r; lia. }
  destruct (N.ltb_spec c 0x10000) as [H3|H3].
  { destruct t as [|a [|b [|c' t]]]; [done|done|done|]. injection E as A B C E. cbn [utf8_valid]. unfold cont, in_range. rewrite A, B, C. specialize (IH t E).
    repeat (match goal with |- context [if ?b then _ else _] => let H := fresh in destruct b eqn:H end); rewrite ?IH, ?andb_true_r; lia. }
  destruct t as [|a [|b [|c' [|d t]]]]; [done|done|done|done|]. injection E as A B C D E. cbn [utf8_valid]. unfold cont, in_range. rewrite A, B, C, D. specialize (IH t E).
    repeat (match goal with |- context [if ?b then _ else _] => let H := fresh in destruct b eqn:H end); rewrite ?IH, ?andb_true_r; lia.
Qed.
Theorem C101_utf8 t : utf8_valid t = true <-> is_utf8 t.
Proof. split; [by apply (utf8_sound (length t))|]. intros (cs & F & E). by apply (utf8_complete cs). Qed.
Print Assumptions C101_utf8.
Example C101_case : is_utf8 [x7a; xc3; x9f; xe6; xb0; xb4; xf0; x9d; x84; x8b] /\ ~ is_utf8 [xc0; x80] /\ ~ is_utf8 [xed; xa0; x80] /\ ~ is_utf8 [xf4; x90; x80; x80].
Proof.
  split; [exists [0x7A; 0xDF; 0x6C34; 0x1D10B]%N; split; [repeat constructor; unfold scalar_value; lia|done]|].
  repeat split; intros H%C101_utf8; by vm_compute in H.
Qed.

(** ** C102: which texts are numbers with a fraction, and which ones *)
Lemma named_no_decimal t w : lower t = w -> w ∈ [bs "inf"; bs "infinity"; bs "nan"] -> parse_decimal t = None.
Proof.
  intros L W.
  assert (H : exists b t', t = b :: t' /\ ~ a_digit b /\ b <> x2e).
  { destruct t as [|b t']; [exfalso; subst w; clear -W; repeat (apply elem_of_cons in W as [W|W]; [done|]); by apply elem_of_nil in W|].
    exists b, t'. split; [done|]. assert (B : lower_byte b = x69 \/ lower_byte b = x6e).
    { cbn in L. subst w. repeat (apply elem_of_cons in W as [W|W]; [injection W as W _; auto|]). by apply elem_of_nil in W. }
    clear -B. split; [intros D|intros ->; vm_compute in B; by destruct B].
    unfold a_digit in D. unfold lower_byte in B. replace ((65 <=? Byte.to_N b) && (Byte.to_N b <=? 90))%N with false in B by lia.
    destruct B as [->| ->]; cbn in D; lia. }
  destruct H as (b & t' & -> & D & P). pose proof (zero_run [] (b :: t') ltac:(constructor) D) as Z. cbn [app] in Z. unfold parse_decimal. rewrite Z.
  destruct (byte_eq_dec b x2e); done.
Qed.
Lemma decimal_signed body neg x :
  (match parse_decimal body with
   | Some (m, e) => Some (round_decimal neg m e)
   | None =>
      if bool_decide (lower body = bs "inf") || bool_decide (lower body = bs "infinity") then Some (S754_infinity neg)
      else if bool_decide (lower body = bs "nan") then Some S754_nan else None
   end = Some x) <->
  ((exists m e, number_text body m e /\ rounded neg (IZR (signed neg m) * powerRZ 10 e) x) \/
   ((same_text body (bs "inf") \/ same_text body (bs "infinity")) /\ x = S754_infinity neg) \/
   (same_text body (bs "nan") /\ x = S754_nan)).
Proof.
  split.
  - destruct (parse_decimal body) as [[m e]|] eqn:P.
    + intros H. injection H as <-. left. exists (Z.of_N m), e. split; [by apply decimal_iff|]. apply round_decimal_ok.
    + intros H. destruct (bool_decide_reflect (lower body = bs "inf")) as [E|_]; [right; left; injection H as <-; split; [left; by apply lower_same|done]|].
      destruct (bool_decide_reflect (lower body = bs "infinity")) as [E|_]; [right; left; injection H as <-; split; [right; by apply lower_same|done]|].
      cbn [orb] in H. destruct (bool_decide_reflect (lower body = bs "nan")) as [E|_]; [|done]. right; right. injection H as <-. split; [by apply lower_same|done].
  - intros [(m & e & T & R)|[[[T|T] ->]|[T ->]]].
    + assert (M : (0 <= m)%Z).
      { destruct T as (ip & fp & point & ex & e0 & _ & F1 & F2 & _ & _ & _ & -> & _). apply (digits_nonneg (ip ++ fp) 0); [lia|]. by apply Forall_app. }
      rewrite <- (Z2N.id m M) in T, R. apply decimal_iff in T. rewrite T. f_equal. eapply rounded_unique; [apply round_decimal_ok|done].
    + apply same_text_lower in T. change (lower (bs "inf")) with (bs "inf") in T. rewrite (named_no_decimal body _ T) by (by left). by rewrite T.
    + apply same_text_lower in T. change (lower (bs "infinity")) with (bs "infinity") in T. rewrite (named_no_decimal body _ T) by (by right; left). by rewrite T.
    + apply same_text_lower in T. change (lower (bs "nan")) with (bs "nan") in T. rewrite (named_no_decimal body _ T) by (by right; right; left). by rewrite T.
Qed.
Theorem C102_float_text t x : parse_f64 t = Some x <-> float_text t x.
Proof.
  unfold parse_f64, float_text. split.
  - destruct t as [|b t'].
    + intros H. apply decimal_signed in H. exists [], [], false. split; [done|]. split; [left; split; [done|by left]|done].
    + destruct (byte_eq_dec b x2d) as [->|N1]; [|destruct (byte_eq_dec b x2b) as [->|N2]]; intros H; apply decimal_signed in H.
      * exists [x2d], t', true. split; [done|]. split; [by right|done].
      * exists [x2b], t', false. split; [done|]. split; [left; split; [done|by right]|done].
      * exists [], (b :: t'), false. split; [done|]. split; [left; split; [done|by left]|done].
  - intros (sign & body & neg & -> & SG & H).
    assert (HD : match body with [] => True | b :: _ => b <> x2d /\ b <> x2b end).
    { destruct body as [|b body]; [done|].
      assert (NM : forall w, w ∈ [bs "inf"; bs "infinity"; bs "nan"] -> same_text (b :: body) w -> b <> x2d /\ b <> x2b).
      { intros w W T. apply same_text_lower in T. split; intros ->; repeat (apply elem_of_cons in W as [->|W]; [done|]); by apply elem_of_nil in W. }
      destruct H as [(m & e & T & R)|[[[T|T] ->]|[T ->]]]; [|by eapply NM; [|exact T]; left|by eapply NM; [|exact T]; right; left|by eapply NM; [|exact T]; right; right; left].
      destruct T as (ip & fp & point & ex & e0 & E & F1 & F2 & NE & PT & _).
      destruct ip as [|d ip]; [|injection E as -> _; inversion F1; subst; by apply digit_no_sign].
      destruct PT as [[-> ->]|E2]; [done|]. rewrite E2 in E. cbn in E. injection E as -> _. done. }
    apply decimal_signed in H. destruct SG as [[-> [->| ->]]|[-> ->]].
    + destruct body as [|b body]; [done|]. destruct HD as [H1 H2]. cbn [app]. destruct (byte_eq_dec b x2d); [done|]. by destruct (byte_eq_dec b x2b).
    + change (bs "+" ++ body) with (x2b :: body). cbv beta iota. destruct (byte_eq_dec x2b x2d); [done|]. by destruct (byte_eq_dec x2b x2b).
    + change (bs "-" ++ body) with (x2d :: body). cbv beta iota. by destruct (byte_eq_dec x2d x2d).
Qed.
(** No binary64 number is nearer to what the text says than the one it is read as. *)
Theorem C102_nearest neg r x y : rounded neg r x -> finite x = true -> f64_valid y = true -> finite y = true ->
  (Rabs (real_of x - r) <= Rabs (real_of y - r))%R.
Proof. apply rounded_nearest. Qed.
(** An integer as a score. *)
Theorem C102_integer z : rounded (z <? 0)%Z (IZR z) (f64_of_Z z).
Proof.
  unfold f64_of_Z. destruct (Z.eq_dec z 0) as [->|N]; [apply rounded_zero|].
  replace (binary_normalize f64_prec f64_emax z 0 false) with (binary_normalize f64_prec f64_emax z 0 (z <? 0)%Z) by (by destruct z).
  by apply rounded_normalize.
Qed.
Print Assumptions C102_float_text. Print Assumptions C102_nearest. Print Assumptions C102_integer.
Example C102_case : exists x, float_text (bs "-.5E+1") x /\ x = f64_of_Z (-5) /\ float_text (bs "INFinity") f64_inf /\ (forall y, ~ float_text (bs "1e") y) /\ forall y, ~ float_text (bs ".") y.
Proof.
  exists (f64_of_Z (-5)). split; [apply C102_float_text; by vm_compute|]. split; [done|]. split; [apply C102_float_text; by vm_compute|].
  split; intros y H%C102_float_text; by vm_compute in H.
Qed.
