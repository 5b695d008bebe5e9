(** Rounding to binary64: the functions of the model compute what [rounded] says. *)
From Coq Require Import ZArith Reals Lia Lra.
From Flocq Require Import Core.Core IEEE754.BinarySingleNaN.
From Verif Require Export SpecNumber Text.
From Verif Require Import TenthFacts.
Local Open Scope Z_scope.

Local Instance prec53' : FLX.Prec_gt_0 f64_prec := eq_refl.
Local Instance emax1024' : Prec_lt_emax f64_prec f64_emax := eq_refl.

Lemma pow2 e : bpow radix2 e = powerRZ 2 e.
Proof. apply bpow_powerRZ. Qed.
Lemma real_of_SF x : real_of x = SF2R radix2 x.
Proof. destruct x as [s|s| |s m e]; try reflexivity. unfold real_of, SF2R, F2R. cbn [Fnum Fexp]. rewrite pow2. now destruct s. Qed.
Lemma finite_SF x : finite x = is_finite_SF x.
Proof. now destruct x. Qed.
Lemma negative_SF x : negative x = sign_SF x.
Proof. now destruct x. Qed.
Lemma to_nearest_round r : to_nearest r = round radix2 (SpecFloat.fexp f64_prec f64_emax) (round_mode mode_NE) r.
Proof. reflexivity. Qed.

(** What the correctness theorems of Flocq give. *)
Lemma rounded_SF neg r z :
  valid_binary f64_prec f64_emax z = true ->
  (if Rlt_bool (Rabs (round radix2 (SpecFloat.fexp f64_prec f64_emax) (round_mode mode_NE) r)) (bpow radix2 f64_emax)
   then SF2R radix2 z = round radix2 (SpecFloat.fexp f64_prec f64_emax) (round_mode mode_NE) r /\ is_finite_SF z = true /\ sign_SF z = neg
   else z = S754_infinity neg) -> rounded neg r z.
Proof.
  intros V H. unfold rounded. rewrite <- pow2, negative_SF, finite_SF, real_of_SF, to_nearest_round.
  change (bpow radix2 1024) with (bpow radix2 f64_emax). destruct (Rlt_bool_spec (Rabs (round radix2 (SpecFloat.fexp f64_prec f64_emax) (round_mode mode_NE) r)) (bpow radix2 f64_emax)) as [L|L].
  - destruct H as (H1 & H2 & H3). split; [exact H3|]. split; [intros _; now split|]. intros G. exfalso. lra.
  - subst z. split; [reflexivity|]. split; [intros G; exfalso; lra|reflexivity].
Qed.

Lemma rounded_zero neg : rounded neg 0 (S754_zero neg).
Proof.
  apply rounded_SF; [reflexivity|]. rewrite round_0 by apply valid_rnd_round_mode. rewrite Rabs_R0, Rlt_bool_true by apply bpow_gt_0. now repeat split.
Qed.
Lemma rounded_normalize neg m : m <> 0 -> neg = (m <? 0) -> rounded neg (IZR m) (SpecFloat.binary_normalize f64_prec f64_emax m 0 neg).
Proof.
  intros N S. rewrite sf_normalize. apply rounded_SF; [apply valid_binary_B2SF|].
  pose proof (binary_normalize_correct f64_prec f64_emax prec53 emax1024 mode_NE m 0 neg) as C. cbv zeta in C.
  replace (F2R (Float radix2 m 0)) with (IZR m) in C by (unfold F2R; cbn; ring).
  destruct (Rlt_bool _ _).
  - destruct C as (C1 & C2 & C3). rewrite SF2R_B2SF, is_finite_SF_B2SF. split; [exact C1|]. split; [exact C2|].
    match goal with |- sign_SF (B2SF ?b) = _ => replace (sign_SF (B2SF b)) with (Bsign b) by (now destruct b) end.
    rewrite C3, S. destruct (Z.ltb_spec m 0) as [L|L].
    + now rewrite Rcompare_Lt by (apply IZR_lt; lia).
    + rewrite Rcompare_Gt; [reflexivity|]. apply IZR_lt. lia.
  - rewrite C. unfold binary_overflow. cbn. f_equal. rewrite S. destruct (Z.ltb_spec m 0) as [L|L].
    + apply Rlt_bool_true. now apply IZR_lt.
    + apply Rlt_bool_false. now apply IZR_le.
Qed.
Lemma rounded_div neg p q : rounded neg (IZR (if neg then Zneg p else Zpos p) / IZR (Zpos q)) (SFdiv f64_prec f64_emax (S754_finite neg p 0) (S754_finite false q 0)).
Proof.
  unfold SFdiv. pose proof (Bdiv_correct_aux f64_prec f64_emax prec53 emax1024 mode_NE neg p 0 false q 0) as C. cbv zeta in C.
  replace (F2R (Float radix2 (cond_Zopp neg (Zpos p)) 0)) with (IZR (if neg then Zneg p else Zpos p)) in C by (unfold F2R; cbn [Fnum Fexp bpow]; rewrite Rmult_1_r; destruct neg; reflexivity).
  replace (F2R (Float radix2 (cond_Zopp false (Zpos q)) 0)) with (IZR (Zpos q)) in C by (unfold F2R; cbn [Fnum Fexp bpow]; rewrite Rmult_1_r; reflexivity).
  destruct (SFdiv_core_binary f64_prec f64_emax (Zpos p) 0 (Zpos q) 0) as [[mz ez] lz]. rewrite sf_round_aux.
  destruct C as [V C]. apply rounded_SF; [exact V|]. rewrite xorb_false_r in *. exact C.
Qed.
Lemma pow10_pos e : 0 <= e -> powerRZ 10 e = IZR (10 ^ e).
Proof. intros H. destruct e as [|e|e]; [reflexivity| |lia]. rewrite <- (Z2Nat.id (Zpos e)) by lia. rewrite <- pow_powerRZ, pow_IZR. f_equal. Qed.
Lemma round_decimal_ok neg m e : rounded neg (IZR (signed neg (Z.of_N m)) * powerRZ 10 e) (round_decimal neg m e).
Proof.
  unfold round_decimal, signed. destruct m as [|p].
  { replace (IZR (if neg then - Z.of_N 0 else Z.of_N 0)) with 0%R by now destruct neg. rewrite Rmult_0_l. apply rounded_zero. }
  destruct (Z.leb_spec 0 e) as [L|L].
  - rewrite pow10_pos by exact L. rewrite <- mult_IZR.
    assert (P : 0 < 10 ^ e) by (apply Z.pow_pos_nonneg; lia).
    assert (Q : 0 < Z.pos p * 10 ^ e) by (apply Z.mul_pos_pos; lia).
    replace ((if neg then - Z.of_N (N.pos p) else Z.of_N (N.pos p)) * 10 ^ e) with (if neg then - (Z.pos p * 10 ^ e) else Z.pos p * 10 ^ e)
      by (destruct neg; cbn [Z.of_N]; lia).
    replace ((if neg then -1 else 1) * (Z.pos p * 10 ^ e)) with (if neg then - (Z.pos p * 10 ^ e) else Z.pos p * 10 ^ e) by (destruct neg; lia).
    revert Q. generalize (Z.pos p * 10 ^ e). intros z Q. apply rounded_normalize; destruct neg; lia.
  - assert (P : 0 < 10 ^ (- e)) by (apply Z.pow_pos_nonneg; lia).
    replace (powerRZ 10 e) with (/ IZR (Zpos (Z.to_pos (10 ^ (- e)))))%R.
    + apply (rounded_div neg p).
    + rewrite Z2Pos.id by exact P. rewrite <- pow10_pos by lia. rewrite powerRZ_neg'. now rewrite Rinv_inv.
Qed.
(** At most one number is the rounded one. *)
Lemma rounded_unique neg r x y : rounded neg r x -> rounded neg r y -> x = y.
Proof.
  intros (N1 & F1 & I1) (N2 & F2 & I2). destruct (Rlt_le_dec (Rabs (to_nearest r)) (powerRZ 2 1024)) as [L|L].
  - specialize (F1 L) as (V1 & A1 & R1). specialize (F2 L) as (V2 & A2 & R2).
    rewrite negative_SF in N1, N2. rewrite finite_SF in A1, A2. rewrite real_of_SF in R1, R2.
    rewrite <- (B2SF_SF2B f64_prec f64_emax x V1), <- (B2SF_SF2B f64_prec f64_emax y V2). f_equal.
    apply B2R_Bsign_inj.
    + now rewrite is_finite_SF2B.
    + now rewrite is_finite_SF2B.
    + rewrite !B2R_SF2B. congruence.
    + rewrite !Bsign_SF2B. congruence.
  - now rewrite (I1 L), (I2 L).
Qed.
(** The rounded number is as near as any. *)
Lemma rounded_nearest neg r x y : rounded neg r x -> finite x = true -> f64_valid y = true -> finite y = true ->
  (Rabs (real_of x - r) <= Rabs (real_of y - r))%R.
Proof.
  intros (_ & F & I) FX VY FY. destruct (Rlt_le_dec (Rabs (to_nearest r)) (powerRZ 2 1024)) as [L|L]; [|now rewrite (I L) in FX].
  destruct (F L) as (_ & _ & ->). rewrite to_nearest_round.
  apply (round_N_pt radix2 (SpecFloat.fexp f64_prec f64_emax) (fun z => negb (Z.even z)) r).
  rewrite real_of_SF, <- (B2R_SF2B f64_prec f64_emax y VY). apply generic_format_B2R.
Qed.
