(** Reading decimal numbers. *)
From Verif Require Export SpecNumber Text.
From Verif Require Import BytesFacts TextFacts RequestFacts.

Lemma zero_run ds rest : Forall a_digit ds -> match rest with [] => True | b :: _ => ~ a_digit b end ->
  take_digits 0 0 (ds ++ rest) = (Z.to_N (digits_value ds), length ds, rest).
Proof. apply (take_digits_run ds rest 0 0). Qed.
Lemma exponent_head t e : exponent_text t e -> match t with [] => True | b :: _ => ~ a_digit b end.
Proof.
  intros [[-> _]|(c & sign & ds & -> & C & _)]; [done|]. cbn. unfold a_digit. destruct C as [->| ->]; cbn; lia.
Qed.
Lemma exponent_iff t e : parse_exp10 t = Some e <-> exponent_text t e.
Proof.
  destruct t as [|b t1].
  { cbn. split; [intros H; injection H as <-; by left|]. by intros [[_ ->]|(c & sign & ds & H & _)]. }
  cbn [parse_exp10]. split.
  - destruct (bool_decide (b = x65) || bool_decide (b = x45)) eqn:B; [|done]. intros H.
    assert (C : b = x65 \/ b = x45) by (apply orb_true_iff in B as [B|B]; apply bool_decide_eq_true in B; auto).
    assert (K : forall (neg : bool) t2, match take_digits 0 0 t2 with (e, S _, []) => Some (if neg then (- Z.of_N e)%Z else Z.of_N e) | _ => None end = Some e ->
      t2 <> [] /\ Forall a_digit t2 /\ e = (if neg then - digits_value t2 else digits_value t2)%Z).
    { intros neg t2 K. destruct (split_digits t2) as (ds & rest & -> & F & R). rewrite (zero_run ds rest F R) in K.
      destruct (length ds) eqn:L; [done|]. destruct rest; [|done]. rewrite app_nil_r in *. split; [by destruct ds|]. split; [done|].
      injection K as <-. pose proof (digits_nonneg ds 0 ltac:(lia) F) as P. change (fold_left digits_step ds 0%Z) with (digits_value ds) in P.
      rewrite Z2N.id by done. by destruct neg. }
    right. destruct t1 as [|c t'].
    + apply (K false []) in H as [N _]. done.
    + destruct (byte_eq_dec c x2d) as [->|N1]; [|destruct (byte_eq_dec c x2b) as [->|N2]].
      * apply (K true t') in H as (N & F & ->). exists b, [x2d], t'. split; [done|]. split; [done|]. split; [done|]. split; [done|]. right. done.
      * apply (K false t') in H as (N & F & ->). exists b, [x2b], t'. split; [done|]. split; [done|]. split; [done|]. split; [done|]. left. split; [by right|done].
      * apply (K false (c :: t')) in H as (N & F & ->). exists b, [], (c :: t'). split; [done|]. split; [done|]. split; [done|]. split; [done|]. left. split; [by left|done].
  - intros [[H _]|(c & sign & ds & E & C & N & F & K)]; [done|]. cbn in E. injection E as -> ->.
    replace (bool_decide (c = x65) || bool_decide (c = x45)) with true by (destruct C as [->| ->]; by vm_compute).
    pose proof (digits_nonneg ds 0 ltac:(lia) F) as P. change (fold_left digits_step ds 0%Z) with (digits_value ds) in P.
    pose proof (zero_run ds [] F I) as Z. rewrite app_nil_r in Z.
    assert (L : exists n, length ds = S n) by (destruct ds; [done|by eexists]). destruct L as [n L]. rewrite L in Z.
    destruct K as [[[-> | ->] ->]|[-> ->]].
    + cbn [app]. destruct ds as [|d ds]; [done|]. inversion F as [|? ? Hd _]; subst. destruct (digit_no_sign d Hd) as [D1 D2].
      destruct (byte_eq_dec d x2d); [done|]. destruct (byte_eq_dec d x2b); [done|]. rewrite Z. by rewrite Z2N.id.
    + change (bs "+" ++ ds) with (x2b :: ds). cbv beta iota. destruct (byte_eq_dec x2b x2d); [done|]. destruct (byte_eq_dec x2b x2b); [|done]. rewrite Z. by rewrite Z2N.id.
    + change (bs "-" ++ ds) with (x2d :: ds). cbv beta iota. destruct (byte_eq_dec x2d x2d); [|done]. rewrite Z. by rewrite Z2N.id.
Qed.
Lemma digits_app a b : digits_value (a ++ b) = fold_left digits_step b (digits_value a).
Proof. unfold digits_value. apply fold_left_app. Qed.
Lemma point_no_digit : ~ a_digit x2e.
Proof. unfold a_digit. cbn. lia. Qed.
Lemma decimal_iff t m e : parse_decimal t = Some (m, e) <-> number_text t (Z.of_N m) e.
Proof.
  unfold parse_decimal. split.
  - destruct (split_digits t) as (ip & r1 & -> & F1 & R1). rewrite (zero_run ip r1 F1 R1).
    pose proof (digits_nonneg ip 0 ltac:(lia) F1) as P1. change (fold_left digits_step ip 0%Z) with (digits_value ip) in P1.
    assert (K : forall fp point ex, r1 = point ++ ex -> Forall a_digit fp -> (point = [] /\ fp = [] \/ point = bs "." ++ fp) ->
      match (length ip + length fp)%nat with O => None | S _ => match parse_exp10 ex with Some e0 => Some (Z.to_N (digits_value (ip ++ fp)), (e0 - Z.of_nat (length fp))%Z) | None => None end end = Some (m, e) ->
      number_text (ip ++ r1) (Z.of_N m) e).
    { intros fp point ex -> F2 PT H. destruct (length ip + length fp)%nat eqn:L; [done|]. destruct (parse_exp10 ex) as [e0|] eqn:X; [|done].
      injection H as <- <-. exists ip, fp, point, ex, e0. split; [done|]. split; [done|]. split; [done|].
      split; [intros E; apply app_eq_nil in E as [-> ->]; done|]. split; [done|]. split; [by apply exponent_iff|]. split; [|done].
      rewrite Z2N.id; [done|]. rewrite digits_app. by apply digits_nonneg. }
    destruct r1 as [|b r1].
    + intros H. apply (K [] [] []); [done|constructor|by left|]. cbn [length]. by rewrite app_nil_r.
    + destruct (byte_eq_dec b x2e) as [->|N].
      * destruct (split_digits r1) as (fp & r3 & -> & F2 & R3). rewrite (take_digits_run fp r3 _ 0 F2 R3). intros H.
        apply (K fp (bs "." ++ fp) r3); [done|done|by right|]. cbn [Nat.add] in H. rewrite digits_app. by rewrite Z2N.id in H.
      * intros H. apply (K [] [] (b :: r1)); [done|constructor|by left|]. cbn [length]. by rewrite app_nil_r.
  - intros (ip & fp & point & ex & e0 & -> & F1 & F2 & N & PT & EX & M & ->).
    pose proof (digits_nonneg ip 0 ltac:(lia) F1) as P1. change (fold_left digits_step ip 0%Z) with (digits_value ip) in P1.
    pose proof (exponent_head _ _ EX) as XH. apply exponent_iff in EX.
    assert (L : (length ip + length fp)%nat <> O) by (intros L; apply N; destruct ip; [destruct fp; [done|cbn in L; lia]|cbn in L; lia]).
    destruct PT as [[-> ->]|E]; [|subst point].
    + rewrite app_nil_r in M. cbn [app]. rewrite (zero_run ip ex F1 XH). cbn [length] in L. 
      assert (X : (match ex with b :: t' => if byte_eq_dec b x2e then take_digits (Z.to_N (digits_value ip)) 0 t' else (Z.to_N (digits_value ip), 0%nat, ex) | [] => (Z.to_N (digits_value ip), 0%nat, ex) end) = (Z.to_N (digits_value ip), 0%nat, ex)).
      { destruct ex as [|b ex]; [done|]. destruct (byte_eq_dec b x2e) as [->|]; [|done]. by vm_compute in EX. }
      rewrite X. cbv beta iota. destruct (length ip + 0)%nat; [done|]. rewrite EX. do 2 f_equal. rewrite <- M. by rewrite N2Z.id.
    + rewrite (zero_run ip ((bs "." ++ fp) ++ ex) F1 point_no_digit). change ((bs "." ++ fp) ++ ex) with (x2e :: fp ++ ex).
      cbv beta iota. destruct (byte_eq_dec x2e x2e); [|done]. rewrite (take_digits_run fp ex _ 0 F2 XH). cbn [Nat.add].
      destruct (length ip + length fp)%nat; [done|]. rewrite EX. rewrite Z2N.id by done. rewrite <- digits_app, <- M. by rewrite N2Z.id.
Qed.
