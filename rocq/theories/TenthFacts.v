(** Adding 0.1 to a binary64 number: it grows exactly for the numbers from -2^50 up to, not including, 2^50,
    and is left as it is otherwise.  The proof goes through the real numbers with Flocq, so these lemmas rest
    on the standard library's axioms of the reals. *)
From Coq Require Import ZArith Reals Lia Lra Psatz.
From Verif Require Import F64 Text.
From Flocq Require Import Core.Core IEEE754.BinarySingleNaN.

Local Open Scope Z_scope.
Notation b64 := (binary_float f64_prec f64_emax).
Local Instance prec53 : FLX.Prec_gt_0 f64_prec := eq_refl.
Local Instance emax1024 : Prec_lt_emax f64_prec f64_emax := eq_refl.
Notation fx := (SpecFloat.fexp f64_prec f64_emax).
Local Instance fx_valid : Valid_exp fx := fexp_correct f64_prec f64_emax prec53.
Local Instance fx_mono : Monotone_exp fx := fexp_monotone f64_prec f64_emax.

(** ** The library's rounding and Flocq's are the same *)
Lemma sf_round_aux s m e l :
  SpecFloat.binary_round_aux f64_prec f64_emax s m e l = binary_round_aux f64_prec f64_emax mode_NE s m e l.
Proof.
  unfold SpecFloat.binary_round_aux, binary_round_aux. destruct (shr_fexp _ _ _ _ _) as [mrs e'].
  replace (round_nearest_even _ _) with (choice_mode mode_NE s (shr_m mrs) (loc_of_shr_record mrs)); [reflexivity|].
  destruct (loc_of_shr_record mrs) as [|[]]; cbn; unfold Round.cond_incr; try reflexivity. now destruct (Z.even _).
Qed.
Lemma sf_normalize m e z :
  SpecFloat.binary_normalize f64_prec f64_emax m e z = B2SF (binary_normalize f64_prec f64_emax prec53 emax1024 mode_NE m e z).
Proof.
  destruct m; cbn; [reflexivity| |];
    rewrite B2SF_SF2B; unfold SpecFloat.binary_round, binary_round, shl_align_fexp;
    destruct (shl_align _ _ _); apply sf_round_aux.
Qed.
Lemma sf_add (x y : b64) : f64_add (B2SF x) (B2SF y) = B2SF (Bplus mode_NE x y).
Proof.
  unfold f64_add. destruct x as [sx|sx| |sx mx ex Hx], y as [sy|sy| |sy my ey Hy];
    try reflexivity; try (cbn; now destruct (Bool.eqb sx sy)).
  unfold Bplus. rewrite <- sf_normalize. reflexivity.
Qed.

Lemma sf_lt (x y : b64) : is_finite x = true -> is_finite y = true ->
  f64_lt (B2SF x) (B2SF y) = true <-> (B2R x < B2R y)%R.
Proof.
  intros Fx Fy. unfold f64_lt, f64_cmp. change (SFcompare (B2SF x) (B2SF y)) with (Bcompare x y).
  rewrite (Bcompare_correct _ _ x y Fx Fy). destruct (Rcompare_spec (B2R x) (B2R y)); split; intros; try easy; lra.
Qed.
Lemma sf_eq (x y : b64) : is_finite x = true -> is_finite y = true ->
  f64_eq (B2SF x) (B2SF y) = true <-> B2R x = B2R y.
Proof.
  intros Fx Fy. unfold f64_eq, f64_cmp. change (SFcompare (B2SF x) (B2SF y)) with (Bcompare x y).
  rewrite (Bcompare_correct _ _ x y Fx Fy). destruct (Rcompare_spec (B2R x) (B2R y)); split; intros; try easy; lra.
Qed.

(** ** Distances between neighbouring numbers *)
Lemma ulp_low x : (Rabs x < bpow radix2 50)%R -> (ulp radix2 fx x <= bpow radix2 (-3))%R.
Proof.
  intros H. destruct (Req_dec x 0) as [->|N].
  - apply Rle_trans with (ulp radix2 fx (bpow radix2 49)).
    + apply ulp_le; [exact fx_valid|exact fx_mono|]. rewrite Rabs_R0. apply Rabs_pos.
    + rewrite ulp_bpow. apply bpow_le. now cbv.
  - rewrite ulp_neq_0 by exact N. apply bpow_le. unfold cexp.
    pose proof (mag_le_bpow radix2 x 50 N H) as M.
    apply Z.le_trans with (fx 50); [now apply fx_mono|now cbv].
Qed.
Lemma ulp_high x : (bpow radix2 50 <= Rabs x)%R -> (bpow radix2 (-2) <= ulp radix2 fx x)%R.
Proof.
  intros H. apply Rle_trans with (ulp radix2 fx (bpow radix2 50)).
  - rewrite ulp_bpow. apply bpow_le. now cbv.
  - apply ulp_le; [exact fx_valid|exact fx_mono|]. rewrite (Rabs_pos_eq (bpow _ _)); [exact H|apply bpow_ge_0].
Qed.
Lemma gap_of_neg c : generic_format radix2 fx c -> (0 < c)%R ->
  (succ radix2 fx (- c) = - c + ulp radix2 fx (pred radix2 fx c))%R.
Proof. intros F P. rewrite succ_opp. pose proof (pred_plus_ulp radix2 fx c P F). lra. Qed.

Lemma b_eighth : bpow radix2 (-3) = (/ 8)%R.
Proof. reflexivity. Qed.
Lemma b_quarter : bpow radix2 (-2) = (/ 4)%R.
Proof. reflexivity. Qed.

Definition grow_range (x : R) : Prop := (- bpow radix2 50 <= x < bpow radix2 50)%R.

Lemma b50_format : generic_format radix2 fx (bpow radix2 50).
Proof. apply generic_format_bpow. now cbv. Qed.

Lemma gap_low x : generic_format radix2 fx x -> grow_range x -> (succ radix2 fx x <= x + / 8)%R.
Proof.
  intros F [H1 H2]. rewrite <- b_eighth.
  destruct (Rle_lt_dec 0 x) as [P|P].
  - rewrite succ_eq_pos by exact P. pose proof (ulp_low x). rewrite Rabs_pos_eq in H by exact P. specialize (H H2). lra.
  - replace x with (- - x)%R by lra. rewrite gap_of_neg; [|now apply generic_format_opp|lra].
    enough (ulp radix2 fx (pred radix2 fx (- x)) <= bpow radix2 (-3))%R by lra.
    apply ulp_low.
    assert (0 <= pred radix2 fx (- x))%R by (apply pred_ge_0; [exact fx_valid|lra|now apply generic_format_opp]).
    assert (pred radix2 fx (- x) < - x)%R by (apply pred_lt_id; lra).
    rewrite Rabs_pos_eq by assumption. lra.
Qed.
Lemma gap_high x : generic_format radix2 fx x -> ~ grow_range x -> (x + / 4 <= succ radix2 fx x)%R.
Proof.
  intros F H. rewrite <- b_quarter.
  pose proof (bpow_gt_0 radix2 50) as B.
  destruct (Rle_lt_dec (bpow radix2 50) x) as [P|P].
  - rewrite succ_eq_pos by lra. pose proof (ulp_high x) as U. rewrite Rabs_pos_eq in U by lra. specialize (U P). lra.
  - assert (L : (bpow radix2 50 < - x)%R).
    { destruct (Rlt_le_dec (bpow radix2 50) (- x)); [assumption|]. exfalso. apply H. split; lra. }
    replace x with (- - x)%R by lra. rewrite gap_of_neg; [|now apply generic_format_opp|lra].
    enough (bpow radix2 (-2) <= ulp radix2 fx (pred radix2 fx (- x)))%R by lra.
    apply ulp_high.
    assert (bpow radix2 50 <= pred radix2 fx (- x))%R.
    { apply pred_ge_gt; [exact fx_valid|apply b50_format|now apply generic_format_opp|exact L]. }
    rewrite Rabs_pos_eq by lra. assumption.
Qed.

Definition tenth : b64 := @SF2B f64_prec f64_emax f64_tenth eq_refl.
Lemma tenth_range : (/ 10 <= B2R tenth < / 9)%R.
Proof.
  change (B2R tenth) with (7205759403792794 * bpow radix2 (-56))%R.
  assert (B : bpow radix2 (-56) = (/ 72057594037927936)%R) by reflexivity. rewrite B. lra.
Qed.

Notation rne := (round radix2 fx ZnearestE).
Lemma sum_grows x : generic_format radix2 fx x -> grow_range x -> (x < rne (x + B2R tenth))%R.
Proof.
  intros F G. pose proof tenth_range as T.
  assert (L : (x < succ radix2 fx x)%R).
  { destruct (Req_dec x 0) as [->|N]; [|now apply succ_gt_id].
    rewrite succ_0. unfold ulp. rewrite Req_bool_true by reflexivity.
    destruct (negligible_exp_spec' fx) as [[-> N]|(n & -> & _)]; [|apply bpow_gt_0].
    specialize (N (-1074)). now vm_compute in N. }
  apply Rlt_le_trans with (1 := L). apply round_N_ge_midp; [exact fx_valid|apply generic_format_succ; [exact fx_valid|exact F]|].
  rewrite pred_succ by (exact fx_valid || exact F). pose proof (gap_low x F G). lra.
Qed.
Lemma sum_absorbed x : generic_format radix2 fx x -> ~ grow_range x -> rne (x + B2R tenth) = x.
Proof.
  intros F G. pose proof tenth_range as T. apply Rle_antisym.
  - apply round_N_le_midp; [exact fx_valid|exact F|]. pose proof (gap_high x F G). lra.
  - apply round_ge_generic; [exact fx_valid|typeclasses eauto|exact F|lra].
Qed.

(** ** The statement for the code's numbers *)
Definition two50 : f64 := S754_finite false (2 ^ 52) (-2).
Definition mtwo50 : f64 := S754_finite true (2 ^ 52) (-2).
Definition b_two50 : b64 := @SF2B f64_prec f64_emax two50 eq_refl.
Definition b_mtwo50 : b64 := @SF2B f64_prec f64_emax mtwo50 eq_refl.
Lemma b_two50_R : B2R b_two50 = bpow radix2 50.
Proof.
  change (B2R b_two50) with (4503599627370496 * bpow radix2 (-2))%R.
  assert (B : bpow radix2 50 = 1125899906842624%R) by reflexivity. rewrite B, b_quarter. lra.
Qed.
Lemma b_mtwo50_R : B2R b_mtwo50 = (- bpow radix2 50)%R.
Proof.
  change (B2R b_mtwo50) with (-4503599627370496 * bpow radix2 (-2))%R.
  assert (B : bpow radix2 50 = 1125899906842624%R) by reflexivity. rewrite B, b_quarter. lra.
Qed.

Lemma finite_sum (x : b64) : is_finite x = true ->
  B2R (Bplus mode_NE x tenth) = rne (B2R x + B2R tenth) /\ is_finite (Bplus mode_NE x tenth) = true.
Proof.
  intros F. pose proof (Bplus_correct f64_prec f64_emax prec53 emax1024 mode_NE x tenth F eq_refl) as H.
  rewrite Rlt_bool_true in H; [tauto|]. clear H.
  change (round_mode mode_NE) with ZnearestE. pose proof (generic_format_B2R f64_prec f64_emax x) as G.
  pose proof (abs_B2R_lt_emax f64_prec f64_emax x) as A.
  destruct (Rle_lt_dec (- bpow radix2 50) (B2R x)) as [L|L]; [destruct (Rlt_le_dec (B2R x) (bpow radix2 50)) as [U|U]|].
  - apply Rle_lt_trans with (bpow radix2 51); [|apply bpow_lt; now cbv].
    pose proof tenth_range as T. pose proof (bpow_gt_0 radix2 50).
    assert (E : bpow radix2 51 = (2 * bpow radix2 50)%R) by exact (bpow_plus_1 radix2 50).
    assert (O : (1 <= bpow radix2 50)%R) by (apply (bpow_le radix2 0 50); now cbv).
    apply abs_round_le_generic; [exact fx_valid|typeclasses eauto| |].
    + apply generic_format_bpow. now cbv.
    + apply Rabs_le. lra.
  - rewrite sum_absorbed; [exact A|exact G|]. unfold grow_range. lra.
  - rewrite sum_absorbed; [exact A|exact G|]. unfold grow_range. lra.
Qed.

Lemma tenth_finite (x : b64) : is_finite x = true ->
  (f64_lt (B2SF x) (f64_add (B2SF x) f64_tenth) = true <->
   f64_le mtwo50 (B2SF x) = true /\ f64_lt (B2SF x) two50 = true) /\
  (f64_lt (B2SF x) (f64_add (B2SF x) f64_tenth) = true \/ f64_eq (B2SF x) (f64_add (B2SF x) f64_tenth) = true).
Proof.
  intros F. change f64_tenth with (B2SF tenth). rewrite sf_add.
  destruct (finite_sum x F) as [E F']. pose proof (generic_format_B2R f64_prec f64_emax x) as G.
  change two50 with (B2SF b_two50). change mtwo50 with (B2SF b_mtwo50).
  assert (LE : f64_le (B2SF b_mtwo50) (B2SF x) = true <-> (- bpow radix2 50 <= B2R x)%R).
  { unfold f64_le, f64_cmp. change (SFcompare (B2SF b_mtwo50) (B2SF x)) with (Bcompare b_mtwo50 x).
    rewrite (Bcompare_correct _ _ b_mtwo50 x eq_refl F), b_mtwo50_R.
    destruct (Rcompare_spec (- bpow radix2 50) (B2R x)); split; intros; try easy; lra. }
  assert (LT : f64_lt (B2SF x) (B2SF b_two50) = true <-> (B2R x < bpow radix2 50)%R)
    by (rewrite <- b_two50_R; now apply sf_lt).
  rewrite LE, LT, sf_lt, sf_eq, E by assumption.
  assert (D : grow_range (B2R x) \/ ~ grow_range (B2R x)).
  { unfold grow_range. destruct (Rle_lt_dec (- bpow radix2 50) (B2R x)), (Rlt_le_dec (B2R x) (bpow radix2 50)); lra. }
  destruct D as [D|D].
  - pose proof (sum_grows _ G D). split; [tauto|now left].
  - rewrite (sum_absorbed _ G D). split; [|now right]. split; intros H; [lra|now destruct D].
Qed.

(** Every number that is not NaN: plus 0.1 it grows exactly between -2^50 and 2^50, and otherwise stays. *)
Lemma tenth_grows (x : f64) : f64_valid x = true -> f64_is_nan x = false ->
  (f64_lt x (f64_add x f64_tenth) = true <-> f64_le mtwo50 x = true /\ f64_lt x two50 = true).
Proof.
  intros V N. destruct x as [s|s| |s m e]; [| |discriminate N|].
  - apply (tenth_finite (B754_zero s) eq_refl).
  - destruct s; vm_compute; intuition discriminate.
  - apply (tenth_finite (B754_finite s m e V) eq_refl).
Qed.
Lemma tenth_or_same (x : f64) : f64_valid x = true -> f64_is_nan x = false ->
  f64_lt x (f64_add x f64_tenth) = true \/ f64_eq x (f64_add x f64_tenth) = true.
Proof.
  intros V N. destruct x as [s|s| |s m e]; [| |discriminate N|].
  - apply (tenth_finite (B754_zero s) eq_refl).
  - right. destruct s; reflexivity.
  - apply (tenth_finite (B754_finite s m e V) eq_refl).
Qed.

(** ** Numbers read from text are proper binary64 numbers *)
Lemma normalize_valid m e z : f64_valid (SpecFloat.binary_normalize f64_prec f64_emax m e z) = true.
Proof. rewrite sf_normalize. apply valid_binary_B2SF. Qed.
Lemma div_valid s p q : f64_valid (SFdiv f64_prec f64_emax (S754_finite s p 0) (S754_finite false q 0)) = true.
Proof.
  pose proof (proj1 (Bdiv_correct_aux f64_prec f64_emax prec53 emax1024 mode_NE s p 0 false q 0)) as H.
  unfold f64_valid, SFdiv. destruct (SFdiv_core_binary _ _ _ _ _ _) as [[mz ez] lz]. rewrite sf_round_aux. exact H.
Qed.
Lemma round_decimal_valid neg m e : f64_valid (round_decimal neg m e) = true.
Proof.
  unfold round_decimal. destruct m as [|p]; [reflexivity|]. destruct (0 <=? e)%Z; [apply normalize_valid|apply div_valid].
Qed.
Lemma parse_f64_valid t f : parse_f64 t = Some f -> f64_valid f = true.
Proof.
  unfold parse_f64. intros H.
  match type of H with (let '(neg, t') := ?x in _) = _ => destruct x as [neg t'] end.
  destruct (parse_decimal t') as [[m e]|]; [injection H as <-; apply round_decimal_valid|].
  destruct (_ || _); [injection H as <-; reflexivity|]. destruct (bool_decide _); [injection H as <-; reflexivity|discriminate].
Qed.
