(** Order of floats, byte strings and sorted-set nodes. *)
From Verif Require Export CmdZset BytesFacts.

(** ** Floats: comparison is a lexicographic comparison of integers. *)
Definition fkey (x : f64) : option (Z * Z * Z) :=
  match x with
  | S754_nan => None
  | S754_infinity true => Some (-2, 0, 0)%Z
  | S754_finite true m e => Some (-1, - e, - Z.pos m)%Z
  | S754_zero _ => Some (0, 0, 0)%Z
  | S754_finite false m e => Some (1, e, Z.pos m)%Z
  | S754_infinity false => Some (2, 0, 0)%Z
  end.
Definition lex3 (a b : Z * Z * Z) : comparison :=
  match Z.compare (fst (fst a)) (fst (fst b)) with
  | Eq => match Z.compare (snd (fst a)) (snd (fst b)) with
          | Eq => Z.compare (snd a) (snd b)
          | c => c
          end
  | c => c
  end.

Lemma f64_cmp_key x y :
  f64_cmp x y = match fkey x, fkey y with Some a, Some b => Some (lex3 a b) | _, _ => None end.
Proof.
  unfold f64_cmp, fkey, lex3, SFcompare.
  destruct x as [[]|[]| |[] m e], y as [[]|[]| |[] m' e']; cbn [fst snd]; try reflexivity.
  - change (-1 ?= -1)%Z with Eq. cbv iota.
    rewrite (Z.compare_opp e e'), (Z.compare_antisym e e').
    destruct (e ?= e')%Z eqn:E; cbn; try reflexivity.
Qed.

Lemma fkey_nan x : f64_is_nan x = false <-> exists a, fkey x = Some a.
Proof. destruct x as [[]|[]| |[] m e]; cbn; (split; [intros; try done; eauto|intros [a Ha]; try done]). Qed.

(** ** Comparison functions that are total orders (up to equivalence) *)
Lemma lex3_lt a b : lex3 a b = Lt <->
  (fst (fst a) < fst (fst b) \/ (fst (fst a) = fst (fst b) /\ (snd (fst a) < snd (fst b) \/
   (snd (fst a) = snd (fst b) /\ snd a < snd b))))%Z.
Proof.
  unfold lex3. destruct a as [[a1 a2] a3], b as [[b1 b2] b3]. cbn.
  destruct (Z.compare_spec a1 b1); [|split; [lia|done]|split; [done|lia]].
  destruct (Z.compare_spec a2 b2); [|split; [lia|done]|split; [done|lia]].
  destruct (Z.compare_spec a3 b3); split; (done || lia).
Qed.
Lemma lex3_eq a b : lex3 a b = Eq <-> a = b.
Proof.
  unfold lex3. destruct a as [[a1 a2] a3], b as [[b1 b2] b3]. cbn.
  destruct (Z.compare_spec a1 b1); [|split; [done|intros [=]; lia]|split; [done|intros [=]; lia]].
  destruct (Z.compare_spec a2 b2); [|split; [done|intros [=]; lia]|split; [done|intros [=]; lia]].
  destruct (Z.compare_spec a3 b3); (split; [|]); intros; try done; try congruence; intuition (subst; try lia; try congruence).
  all: match goal with H : (_, _, _) = _ |- _ => injection H; intros; lia end.
Qed.
Lemma lex3_gt a b : lex3 a b = Gt <-> lex3 b a = Lt.
Proof.
  rewrite lex3_lt. unfold lex3. destruct a as [[a1 a2] a3], b as [[b1 b2] b3]. cbn.
  destruct (Z.compare_spec a1 b1); [|split; [done|lia]|split; [lia|done]].
  destruct (Z.compare_spec a2 b2); [|split; [done|lia]|split; [lia|done]].
  destruct (Z.compare_spec a3 b3); split; (done || lia).
Qed.
Lemma lex3_trans a b c : lex3 a b = Lt -> lex3 b c = Lt -> lex3 a c = Lt.
Proof. rewrite !lex3_lt. lia. Qed.

Lemma byte_to_N_inj a b : Byte.to_N a = Byte.to_N b -> a = b.
Proof.
  intros H. pose proof (Byte.of_to_N a) as Ha. pose proof (Byte.of_to_N b) as Hb.
  rewrite H, Hb in Ha. by injection Ha.
Qed.

Lemma bytes_cmp_eq x y : bytes_cmp x y = Eq <-> x = y.
Proof.
  revert y. induction x as [|a x IH]; intros [|b y]; cbn; try done.
  unfold byte_cmp. destruct (N.compare_spec (Byte.to_N a) (Byte.to_N b)) as [E|E|E].
  - apply byte_to_N_inj in E as ->. rewrite IH. split; [by intros ->|by intros [= ->]].
  - split; [done|]. intros [= -> ->]. lia.
  - split; [done|]. intros [= -> ->]. lia.
Qed.
Lemma bytes_cmp_gt x y : bytes_cmp x y = Gt <-> bytes_cmp y x = Lt.
Proof.
  revert y. induction x as [|a x IH]; intros [|b y]; cbn; try done.
  unfold byte_cmp. rewrite (N.compare_antisym (Byte.to_N a)).
  destruct (N.compare_spec (Byte.to_N a) (Byte.to_N b)) as [E|E|E]; cbn; [apply IH|done|done].
Qed.
Lemma bytes_cmp_trans x y z : bytes_cmp x y = Lt -> bytes_cmp y z = Lt -> bytes_cmp x z = Lt.
Proof.
  revert y z. induction x as [|a x IH]; intros [|b y] [|c z]; cbn; try done.
  unfold byte_cmp.
  destruct (N.compare_spec (Byte.to_N a) (Byte.to_N b)) as [E|E|E]; [|intros _|done].
  - apply byte_to_N_inj in E as ->.
    destruct (N.compare_spec (Byte.to_N b) (Byte.to_N c)) as [E|E|E]; [|done|done].
    apply IH.
  - destruct (N.compare_spec (Byte.to_N b) (Byte.to_N c)) as [E'|E'|E']; [|intros _|done].
    + apply byte_to_N_inj in E' as ->. intros _.
      destruct (N.compare_spec (Byte.to_N a) (Byte.to_N c)) as [E'|E'|E']; [lia|done|lia].
    + destruct (N.compare_spec (Byte.to_N a) (Byte.to_N c)) as [E''|E''|E'']; [lia|done|lia].
Qed.

(** ** Nodes *)
Definition nkey (n : node) : option (Z * Z * Z * bytes) :=
  match fkey (n_score n) with Some a => Some (a, n_key n) | None => None end.
Definition lexn (a b : Z * Z * Z * bytes) : comparison :=
  match lex3 (fst a) (fst b) with Eq => bytes_cmp (snd a) (snd b) | c => c end.

Lemma node_cmp_key x y :
  node_cmp x y = match nkey x, nkey y with Some a, Some b => Some (lexn a b) | _, _ => None end.
Proof.
  unfold node_cmp, nkey. rewrite f64_cmp_key.
  destruct (fkey (n_score x)), (fkey (n_score y)); try done.
  unfold lexn. cbn [fst snd]. by destruct (lex3 p p0).
Qed.
Lemma lexn_eq a b : lexn a b = Eq <-> a = b.
Proof.
  unfold lexn. destruct a as [a x], b as [b y]. cbn.
  destruct (lex3 a b) eqn:E.
  - apply lex3_eq in E as ->. rewrite bytes_cmp_eq. split; [by intros ->|by intros [= ->]].
  - split; [done|]. intros [= -> ->]. by rewrite (proj2 (lex3_eq b b) eq_refl) in E.
  - split; [done|]. intros [= -> ->]. by rewrite (proj2 (lex3_eq b b) eq_refl) in E.
Qed.
Lemma lexn_gt a b : lexn a b = Gt <-> lexn b a = Lt.
Proof.
  unfold lexn. destruct a as [a x], b as [b y]. cbn.
  destruct (lex3 a b) eqn:E.
  - apply lex3_eq in E as ->. rewrite (proj2 (lex3_eq b b) eq_refl). apply bytes_cmp_gt.
  - assert (lex3 b a = Gt) as -> by by apply lex3_gt. done.
  - apply lex3_gt in E as ->. done.
Qed.
Lemma lexn_trans a b c : lexn a b = Lt -> lexn b c = Lt -> lexn a c = Lt.
Proof.
  unfold lexn. destruct a as [a x], b as [b y], c as [c z]. cbn.
  destruct (lex3 a b) eqn:E; [|intros _|done].
  - apply lex3_eq in E as ->. destruct (lex3 b c); [|done|done]. apply bytes_cmp_trans.
  - destruct (lex3 b c) eqn:E'; [|intros _|done].
    + apply lex3_eq in E' as ->. by rewrite E.
    + by rewrite (lex3_trans _ _ _ E E').
Qed.

Lemma nkey_nan n : node_nan n = false -> exists a, nkey n = Some a.
Proof. unfold node_nan, nkey. intros H. apply fkey_nan in H as [a ->]. eauto. Qed.
Lemma nkey_some_nan n a : nkey n = Some a -> node_nan n = false.
Proof.
  unfold node_nan, nkey. intros H. apply fkey_nan. destruct (fkey (n_score n)) eqn:E; [eauto|done].
Qed.

Definition node_lt (a b : node) : Prop := node_cmp a b = Some Lt.

Lemma node_lt_trans a b c : node_lt a b -> node_lt b c -> node_lt a c.
Proof.
  unfold node_lt. rewrite !node_cmp_key.
  destruct (nkey a), (nkey b), (nkey c); try done. intros [= H1] [= H2]. by rewrite (lexn_trans _ _ _ H1 H2).
Qed.
Lemma node_lt_irrefl a : ~ node_lt a a.
Proof.
  unfold node_lt. rewrite node_cmp_key. destruct (nkey a) as [p|]; [|done].
  by rewrite (proj2 (lexn_eq p p) eq_refl).
Qed.
Lemma node_lt_asym a b : node_lt a b -> node_lt b a -> False.
Proof. intros H1 H2. exact (node_lt_irrefl _ (node_lt_trans _ _ _ H1 H2)). Qed.
Lemma node_cmp_gt a b : node_cmp a b = Some Gt <-> node_lt b a.
Proof.
  unfold node_lt. rewrite !node_cmp_key. destruct (nkey a), (nkey b); try done.
  split; intros [= H]; f_equal; by apply lexn_gt.
Qed.
Lemma node_cmp_eq_key a b : node_cmp a b = Some Eq -> n_key a = n_key b /\ f64_cmp (n_score a) (n_score b) = Some Eq.
Proof.
  unfold node_cmp. destruct (f64_cmp (n_score a) (n_score b)) as [[]|]; try done.
  intros [= H]. by apply bytes_cmp_eq in H.
Qed.
Lemma node_cmp_refl a : node_nan a = false -> node_cmp a a = Some Eq.
Proof. intros H. apply nkey_nan in H as [p E]. rewrite node_cmp_key, E. f_equal. by apply lexn_eq. Qed.
Lemma node_cmp_total a b : node_nan a = false -> node_nan b = false -> exists c, node_cmp a b = Some c.
Proof. intros [p E]%nkey_nan [q E']%nkey_nan. rewrite node_cmp_key, E, E'. eauto. Qed.
Lemma node_cmp_eq_lt a b c : node_cmp a b = Some Eq -> node_lt b c -> node_lt a c.
Proof.
  unfold node_lt. rewrite !node_cmp_key. destruct (nkey a), (nkey b), (nkey c); try done.
  intros [= ->%lexn_eq] [= H]. by rewrite H.
Qed.
Lemma node_lt_cmp_eq a b c : node_lt a b -> node_cmp b c = Some Eq -> node_lt a c.
Proof.
  unfold node_lt. rewrite !node_cmp_key. destruct (nkey a), (nkey b), (nkey c); try done.
  intros [= H] [= ->%lexn_eq]. by rewrite H.
Qed.

(** ** Scores *)
Lemma f64_lt_le x y : f64_lt x y = true -> f64_le x y = true.
Proof. unfold f64_lt, f64_le. by destruct (f64_cmp x y) as [[]|]. Qed.
Lemma f64_le_lt_trans x y z : f64_le x y = true -> f64_lt y z = true -> f64_lt x z = true.
Proof.
  unfold f64_le, f64_lt. rewrite !f64_cmp_key. destruct (fkey x) as [a|], (fkey y) as [b|], (fkey z) as [c|]; try done.
  destruct (lex3 a b) eqn:E; [|intros _|done]; (destruct (lex3 b c) eqn:E'; [done|intros _|done]).
  - apply lex3_eq in E as ->. by rewrite E'.
  - by rewrite (lex3_trans _ _ _ E E').
Qed.
Lemma f64_lt_le_trans x y z : f64_lt x y = true -> f64_le y z = true -> f64_lt x z = true.
Proof.
  unfold f64_le, f64_lt. rewrite !f64_cmp_key. destruct (fkey x) as [a|], (fkey y) as [b|], (fkey z) as [c|]; try done.
  destruct (lex3 a b) eqn:E; [done|intros _|done]; (destruct (lex3 b c) eqn:E'; [intros _|intros _|done]).
  - apply lex3_eq in E' as ->. by rewrite E.
  - by rewrite (lex3_trans _ _ _ E E').
Qed.
