(** C100: the reader of the wire accepts exactly a grammar. *)
From Verif Require Export SpecGrammar.
From Verif Require Import FrameFacts PropExact.

Lemma number_read l : line_number l (atoi_or_0 l).
Proof.
  unfold line_number, atoi_or_0. pose proof (atoi_reads l) as A. destruct (atoi_i64 l) as [z|].
  - destruct A as [A I]. left. split; [done|]. unfold is_i64, i64_min, i64_max, z_two63 in I. lia.
  - right. split; [|done]. intros y Y. specialize (A y Y). unfold is_i64, i64_min, i64_max, z_two63 in A. lia.
Qed.
Lemma number_unique l z z' : line_number l z -> line_number l z' -> z = z'.
Proof.
  intros [[A B]|[A ->]] [[A' B']|[A' ->]]; [by eapply reads_as_unique| | |done].
  - by destruct (A' z A).
  - by destruct (A z' A').
Qed.
Lemma number_is l z : line_number l z -> atoi_or_0 l = z.
Proof. intros H. eapply number_unique; [apply number_read|done]. Qed.

Lemma line_split i : match take_line i with
  | POk l r => i = l ++ r /\ one_line l /\ r <> []
  | PIncomplete => one_line i
  | PError => False
  end.
Proof.
  induction i as [|c i IH]; cbn [take_line]; [split; by intros []|].
  destruct (not_crlf c) eqn:C.
  - apply not_crlf_spec in C as [C1 C2]. destruct (take_line i) as [l r| |]; [| |done].
    + destruct IH as (-> & [O1 O2] & N). split; [done|]. split; [|done]. split; intros [E|E]; auto.
    + destruct IH as [O1 O2]. split; intros [E|E]; auto.
  - split; [done|]. split; [|done]. split; by intros [].
Qed.
Lemma tag_crlf_split r : r <> [] -> match ptag CRLF r with
  | POk _ r' => r = CRLF ++ r'
  | PIncomplete => r = [CR]
  | PError => True
  end.
Proof.
  intros N. destruct r as [|a r]; [done|]. unfold CRLF. cbn [ptag]. destruct (byte_eq_dec CR a) as [<-|]; [|done].
  destruct r as [|b r]; [done|]. by destruct (byte_eq_dec LF b) as [<-|].
Qed.
(** A line and its end. *)
Definition whole_line (f : parser bytes) : parser bytes := l <- f;; _ <- ptag CRLF;; pret l.
Lemma whole_split i : match whole_line take_line i with
  | POk l r => i = l ++ CRLF ++ r /\ one_line l
  | PIncomplete => exists u l, i ++ u = l ++ CRLF /\ one_line l /\ (i <> [] -> hd CR i <> CR -> l <> [])
  | PError => True
  end.
Proof.
  unfold whole_line, pbind, pret. pose proof (line_split i) as L. destruct (take_line i) as [l r| |]; [| |done].
  - destruct L as (-> & O & N). pose proof (tag_crlf_split r N) as T. destruct (ptag CRLF r) as [[] r'| |]; [| |done].
    + by subst r.
    + subst r. exists [LF], l. rewrite <- app_assoc. split; [done|]. split; [done|]. destruct l; [|done]. cbn. by intros _ H.
  - exists CRLF, i. done.
Qed.
Lemma whole1_split i : match whole_line take_line1 i with
  | POk l r => i = l ++ CRLF ++ r /\ one_line l /\ l <> []
  | PIncomplete => exists u l, i ++ u = l ++ CRLF /\ one_line l /\ l <> []
  | PError => True
  end.
Proof.
  destruct i as [|c i].
  { exists (bs "0" ++ CRLF), (bs "0"). split; [done|]. split; [|done]. split; intros [H|[]]; done. }
  pose proof (whole_split (c :: i)) as W. unfold whole_line, take_line1 in *. unfold pbind in *.
  destruct (not_crlf c) eqn:C; [|done].
  destruct (take_line (c :: i)) as [l r| |] eqn:T; [| |done].
  - destruct (ptag CRLF r) as [[] r'| |]; [| |done].
    + destruct W as [E O]. split; [done|]. split; [done|]. intros ->. cbn in E. injection E as -> _. by vm_compute in C.
    + destruct W as (u & l' & E & O & N). exists u, l'. split; [done|]. split; [done|]. apply N; [done|]. cbn. intros ->. by vm_compute in C.
  - destruct W as (u & l' & E & O & N). exists u, l'. split; [done|]. split; [done|]. apply N; [done|]. cbn. intros ->. by vm_compute in C.
Qed.
Lemma whole_app l r : one_line l -> whole_line take_line (l ++ CRLF ++ r) = POk l r.
Proof. intros O. unfold whole_line, pbind. by rewrite line_app, tag_app. Qed.
Lemma whole1_app l r : l <> [] -> one_line l -> whole_line take_line1 (l ++ CRLF ++ r) = POk l r.
Proof. intros N O. unfold whole_line, pbind. by rewrite line1_app, tag_app. Qed.

(** ** One step of the reader, by the first byte *)
(** What follows the length of a bulk string, or of an array. *)
Definition bulk_tail (l : bytes) : parser frame :=
  if (atoi_or_0 l <? 0)%Z then pret FNull else d <- take_n (Z.to_N (atoi_or_0 l));; _ <- ptag CRLF;; pret (FBulk d).
Definition array_tail (g : parser frame) (l : bytes) : parser frame :=
  if (atoi_or_0 l <? 0)%Z then pret FNull
  else fun i => match parse_elems (S (length i)) g (Z.to_N (atoi_or_0 l)) i with
                | POk fs r => POk (FArray fs) r
                | PIncomplete => PIncomplete
                | PError => PError
                end.
Lemma alt_cases fuel i : parse_alt (S fuel) i =
  match i with
  | [] => PIncomplete
  | c :: i' =>
      if byte_eq_dec x2b c then pbind (whole_line take_line) (fun l => pret (FSimple l)) i'
      else if byte_eq_dec x2d c then pbind (whole_line take_line1) (fun l => pret (FError l)) i'
      else if byte_eq_dec x3a c then pbind (whole_line take_line1) (fun l => pret (FInteger (atoi_or_0 l))) i'
      else if byte_eq_dec x24 c then pbind (whole_line take_line1) bulk_tail i'
      else if byte_eq_dec x2a c then pbind (whole_line take_line1) (array_tail (parse_alt fuel)) i'
      else parse_ping i
  end.
Proof.
  destruct i as [|c i]; [done|]. cbn [parse_alt].
  assert (Q : c <> x50 -> parse_ping (c :: i) = PError).
  { intros N. unfold parse_ping, pbind. cbn. by destruct (byte_eq_dec x50 c) as [<-|]. }
  unfold palt, parse_simple, parse_error, parse_int, parse_bulk, parse_array, whole_line, bulk_tail, array_tail.
  unfold pbind, pret. change (bs "+") with [x2b]. change (bs "-") with [x2d]. change (bs ":") with [x3a]. change (bs "$") with [x24]. change (bs "*") with [x2a].
  cbn [ptag].
  destruct (byte_eq_dec x2b c) as [<-|N1].
  { destruct (byte_eq_dec x2d x2b); [done|]. destruct (byte_eq_dec x3a x2b); [done|]. destruct (byte_eq_dec x24 x2b); [done|]. destruct (byte_eq_dec x2a x2b); [done|].
    rewrite Q by done. destruct (take_line i) as [l r| |]; [|done|done]. by destruct (ptag CRLF r). }
  destruct (byte_eq_dec x2d c) as [<-|N2].
  { destruct (byte_eq_dec x3a x2d); [done|]. destruct (byte_eq_dec x24 x2d); [done|]. destruct (byte_eq_dec x2a x2d); [done|].
    rewrite Q by done. destruct (take_line1 i) as [l r| |]; [|done|done]. by destruct (ptag CRLF r). }
  destruct (byte_eq_dec x3a c) as [<-|N3].
  { destruct (byte_eq_dec x24 x3a); [done|]. destruct (byte_eq_dec x2a x3a); [done|].
    rewrite Q by done. destruct (take_line1 i) as [l r| |]; [|done|done]. by destruct (ptag CRLF r). }
  destruct (byte_eq_dec x24 c) as [<-|N4].
  { destruct (byte_eq_dec x2a x24); [done|]. rewrite Q by done.
    destruct (take_line1 i) as [l r| |]; [|done|done]. destruct (ptag CRLF r) as [[] r'| |]; [|done|done].
    destruct (atoi_or_0 l <? 0)%Z; [done|]. destruct (take_n _ r') as [d r2| |]; [|done|done]. by destruct (ptag CRLF r2). }
  destruct (byte_eq_dec x2a c) as [<-|N5].
  { rewrite Q by done. destruct (take_line1 i) as [l r| |]; [|done|done]. destruct (ptag CRLF r) as [[] r'| |]; [|done|done].
    destruct (atoi_or_0 l <? 0)%Z; [done|]. by destruct (parse_elems _ _ _ _). }
  done.
Qed.

(** ** What is read is in the grammar; what is incomplete can be completed *)
Definition explained (i : bytes) (p : pres frame) : Prop :=
  match p with
  | POk f r => exists w, i = w ++ r /\ wire w f
  | PIncomplete => exists u f, wire (i ++ u) f
  | PError => True
  end.
Lemma filler n : exists w fs, wires w fs /\ length fs = n.
Proof.
  induction n as [|n (w & fs & W & L)]; [exists [], []; split; [constructor|done]|].
  exists ((bs "+" ++ [] ++ CRLF) ++ w), (FSimple [] :: fs). split; [|cbn; lia]. constructor; [|done]. constructor. split; by intros [].
Qed.
Lemma elems_explained g B : (forall j, (length j < B)%nat -> explained j (g j)) -> (forall j f k, g j = POk f k -> (length k < length j)%nat) ->
  forall fuel n i, (length i < B)%nat -> (length i < fuel)%nat ->
  match parse_elems fuel g n i with
  | POk fs r => exists w, i = w ++ r /\ wires w fs /\ length fs = N.to_nat n
  | PIncomplete => exists u fs, wires (i ++ u) fs /\ length fs = N.to_nat n
  | PError => True
  end.
Proof.
  intros G P. induction fuel as [|fuel IH]; intros n i LB LF; [lia|]. cbn [parse_elems].
  destruct (N.eqb_spec n 0) as [->|N]. { exists []. split; [done|]. split; [constructor|done]. }
  specialize (G i LB). specialize (P i). destruct (g i) as [f r| |]; cbn [explained] in G; [| |done].
  - destruct G as (w & -> & W). specialize (P f r eq_refl).
    specialize (IH (n - 1)%N r ltac:(lia) ltac:(lia)). destruct (parse_elems fuel g (n - 1) r) as [fs r'| |]; [| |done].
    + destruct IH as (w' & -> & W' & L). exists (w ++ w'). split; [by rewrite app_assoc|]. split; [by constructor|]. cbn. lia.
    + destruct IH as (u & fs & W' & L). exists u, (f :: fs). rewrite <- app_assoc. split; [by constructor|]. cbn. lia.
  - destruct G as (u & f & W). destruct (filler (N.to_nat (n - 1))) as (w & fs & W' & L).
    exists (u ++ w), (f :: fs). rewrite app_assoc. split; [by constructor|]. cbn. lia.
Qed.
Lemma take_split n i : match take_n n i with
  | POk d r => i = d ++ r /\ length d = N.to_nat n
  | PIncomplete => (length i < N.to_nat n)%nat
  | PError => False
  end.
Proof.
  unfold take_n. destruct (N.ltb_spec (N.of_nat (length i)) n); [lia|]. rewrite firstn_skipn, firstn_length. split; [done|lia].
Qed.
Lemma bulk_explained l i : l <> [] -> one_line l -> explained (bs "$" ++ l ++ CRLF ++ i)
  (match bulk_tail l i with POk f r => POk f r | x => x end).
Proof.
  intros N O. pose proof (number_read l) as R. unfold bulk_tail. destruct (Z.ltb_spec (atoi_or_0 l) 0) as [L|L].
  { cbn. exists (bs "$" ++ l ++ CRLF). rewrite <- !app_assoc. split; [done|]. by apply (wire_no_bulk l (atoi_or_0 l)). }
  unfold pbind. pose proof (take_split (Z.to_N (atoi_or_0 l)) i) as T. destruct (take_n _ i) as [d r| |]; [| |done].
  - destruct T as [-> T]. replace (atoi_or_0 l) with (Z.of_nat (length d)) in R by lia. unfold pret.
    destruct r as [|c r].
    { cbn [ptag explained]. exists CRLF, (FBulk d). rewrite app_nil_r, <- !app_assoc. by apply (wire_bulk l d). }
    pose proof (tag_crlf_split (c :: r) ltac:(done)) as C. destruct (ptag CRLF (c :: r)) as [[] r'| |]; cbn [explained]; [| |done].
    + rewrite C. exists (bs "$" ++ l ++ CRLF ++ d ++ CRLF). rewrite <- !app_assoc. split; [done|]. by constructor.
    + rewrite C. exists [LF], (FBulk d). rewrite <- !app_assoc. by apply (wire_bulk l d).
  - cbn [explained]. exists (repeat x61 (N.to_nat (Z.to_N (atoi_or_0 l)) - length i) ++ CRLF), (FBulk (i ++ repeat x61 (N.to_nat (Z.to_N (atoi_or_0 l)) - length i))).
    rewrite <- !app_assoc, (app_assoc i). apply wire_bulk; [done|done|]. rewrite app_length, repeat_length.
    replace (Z.of_nat _) with (atoi_or_0 l) by lia. done.
Qed.
Lemma array_explained g B l i : l <> [] -> one_line l ->
  (forall j, (length j < B)%nat -> explained j (g j)) -> (forall j f k, g j = POk f k -> (length k < length j)%nat) -> (length i < B)%nat ->
  explained (bs "*" ++ l ++ CRLF ++ i) (array_tail g l i).
Proof.
  intros N O G P LB. pose proof (number_read l) as R. unfold array_tail. destruct (Z.ltb_spec (atoi_or_0 l) 0) as [L|L].
  { cbn. exists (bs "*" ++ l ++ CRLF). rewrite <- !app_assoc. split; [done|]. by apply (wire_no_array l (atoi_or_0 l)). }
  pose proof (elems_explained g B G P (S (length i)) (Z.to_N (atoi_or_0 l)) i LB ltac:(lia)) as E.
  destruct (parse_elems _ _ _ _) as [fs r| |]; cbn [explained]; [| |done].
  - destruct E as (w & -> & W & LE). exists (bs "*" ++ l ++ CRLF ++ w). rewrite <- !app_assoc. split; [done|].
    apply wire_array; [done|done| |done]. replace (Z.of_nat (length fs)) with (atoi_or_0 l) by lia. done.
  - destruct E as (u & fs & W & LE). exists u, (FArray fs). rewrite <- !app_assoc.
    apply wire_array; [done|done| |done]. replace (Z.of_nat (length fs)) with (atoi_or_0 l) by lia. done.
Qed.
(** A beginning of a header: some value completes it. *)
Lemma header_done (c : byte) l : c ∈ [x2b; x2d; x3a; x24; x2a] -> l <> [] -> one_line l -> exists u f, wire (c :: (l ++ CRLF) ++ u) f.
Proof.
  intros C N O. pose proof (number_read l) as R.
  apply elem_of_cons in C as [->|C]. { exists [], (FSimple l). rewrite app_nil_r. by apply (wire_simple l). }
  apply elem_of_cons in C as [->|C]. { exists [], (FError l). rewrite app_nil_r. by apply (wire_error l). }
  apply elem_of_cons in C as [->|C]. { eexists [], _. rewrite app_nil_r. by apply (wire_int l (atoi_or_0 l)). }
  destruct (Z.ltb_spec (atoi_or_0 l) 0) as [L|L].
  { exists [], FNull. rewrite app_nil_r. apply elem_of_cons in C as [->|C]; [by apply (wire_no_bulk l (atoi_or_0 l))|].
    apply elem_of_list_singleton in C as ->. by apply (wire_no_array l (atoi_or_0 l)). }
  apply elem_of_cons in C as [->|C].
  - exists (repeat x61 (Z.to_nat (atoi_or_0 l)) ++ CRLF). eexists. rewrite <- app_assoc. apply (wire_bulk l); [done|done|].
    rewrite repeat_length, Z2Nat.id by lia. done.
  - apply elem_of_list_singleton in C as ->. destruct (filler (Z.to_nat (atoi_or_0 l))) as (w & fs & W & LF).
    exists w. eexists. rewrite <- app_assoc. apply (wire_array l w fs); [done|done| |done]. rewrite LF, Z2Nat.id by lia. done.
Qed.
Lemma ping_explained i : i <> [] -> explained i (parse_ping i).
Proof.
  intros N. unfold parse_ping, pbind.
  assert (T : forall s j, j <> [] -> match ptag s j with POk _ r => j = s ++ r | PIncomplete => exists u, s = j ++ u | PError => True end).
  { induction s as [|a s IH]; intros j Nj; [done|]. destruct j as [|b j]; [done|]. cbn [ptag].
    destruct (byte_eq_dec a b) as [->|]; [|done]. destruct j as [|b' j].
    - destruct s; [done|]. cbn. by eexists.
    - specialize (IH (b' :: j) ltac:(done)). destruct (ptag s (b' :: j)); [by rewrite IH| |done]. destruct IH as [u ->]. by exists u. }
  specialize (T (bs "PING" ++ CRLF) i N). destruct (ptag _ i) as [[] r| |]; cbn [explained pret]; [| |done].
  - exists (bs "PING" ++ CRLF). split; [done|constructor].
  - destruct T as [u T]. exists u, FPing. rewrite <- T. constructor.
Qed.
Lemma alt_explained fuel i : (length i < fuel)%nat -> explained i (parse_alt fuel i).
Proof.
  revert i; induction fuel as [|fuel IH]; intros i L; [lia|]. rewrite alt_cases. destruct i as [|c i].
  { exists (bs "PING" ++ CRLF), FPing. constructor. }
  assert (H1 : forall c' (k : bytes -> parser frame), c' ∈ [x2d; x3a; x24; x2a] ->
    (forall l r, l <> [] -> one_line l -> i = l ++ CRLF ++ r -> explained ([c'] ++ l ++ CRLF ++ r) (k l r)) ->
    explained (c' :: i) (pbind (whole_line take_line1) k i)).
  { intros c' k C K. unfold pbind. pose proof (whole1_split i) as W. destruct (whole_line take_line1 i) as [l r| |]; [| |done].
    - destruct W as (-> & O & N). by apply K.
    - destruct W as (u & l & E & O & N). destruct (header_done c' l) as (v & f & V); [by apply elem_of_cons; right|done|done|].
      exists (u ++ v), f. cbn [app]. rewrite app_assoc, E. done. }
  destruct (byte_eq_dec x2b c) as [<-|N1].
  { unfold pbind. pose proof (whole_split i) as W. destruct (whole_line take_line i) as [l r| |]; [| |done].
    - destruct W as [-> O]. exists (bs "+" ++ l ++ CRLF). rewrite <- !app_assoc. split; [done|]. by constructor.
    - destruct W as (u & l & E & O & _). exists u, (FSimple l). cbn [app]. rewrite E. by apply (wire_simple l). }
  destruct (byte_eq_dec x2d c) as [<-|N2].
  { apply H1; [by left|]. intros l r N O _. exists (bs "-" ++ l ++ CRLF). rewrite <- !app_assoc. split; [done|]. by constructor. }
  destruct (byte_eq_dec x3a c) as [<-|N3].
  { apply H1; [by right; left|]. intros l r N O _. exists (bs ":" ++ l ++ CRLF). rewrite <- !app_assoc. split; [done|].
    apply wire_int; [done|done|]. apply number_read. }
  destruct (byte_eq_dec x24 c) as [<-|N4].
  { apply H1; [by right; right; left|]. intros l r N O _. pose proof (bulk_explained l r N O) as B. by destruct (bulk_tail l r). }
  destruct (byte_eq_dec x2a c) as [<-|N5].
  { apply H1; [by right; right; right; left|]. intros l r N O E. apply (array_explained _ fuel); [done|done|exact IH|apply alt_progress|].
    subst i. cbn [length] in L. rewrite !app_length in L. cbn [length CRLF] in L. lia. }
  by apply ping_explained.
Qed.

(** ** What is in the grammar is read *)
Lemma wire_pos w f : wire w f -> (0 < length w)%nat.
Proof. destruct 1; cbn; lia. Qed.
Lemma elems_read g B w fs : (forall j r f, (length j <= B)%nat -> wire j f -> g (j ++ r) = POk f r) -> wires w fs -> (length w <= B)%nat ->
  forall r fuel, (length (w ++ r) < fuel)%nat -> parse_elems fuel g (N.of_nat (length fs)) (w ++ r) = POk fs r.
Proof.
  intros G W. induction W as [|w f ws fs Wf W IH]; intros LB r fuel L; [by destruct fuel|].
  destruct fuel as [|fuel]; [lia|]. cbn [parse_elems length]. replace (N.of_nat (S (length fs)) =? 0)%N with false by lia.
  rewrite app_length in LB. rewrite <- app_assoc in *. rewrite (G w (ws ++ r) f ltac:(lia) Wf).
  replace (N.of_nat (S (length fs)) - 1)%N with (N.of_nat (length fs)) by lia. rewrite IH; [done|lia|].
  pose proof (wire_pos w f Wf). rewrite app_length in L. lia.
Qed.
Lemma alt_read n w f : wire w f -> (length w <= n)%nat -> forall r fuel, (n < fuel)%nat -> parse_alt fuel (w ++ r) = POk f r.
Proof.
  revert w f; induction n as [|n IH]; intros w f W L r fuel F; [pose proof (wire_pos _ _ W); lia|].
  destruct fuel as [|fuel]; [lia|]. rewrite alt_cases. destruct W as [l O|l N O|l z N O R|l z N O R K|l d N O R|l z N O R K|l w fs N O R W|].
  - rewrite <- !app_assoc. cbn [app bs]. change (bs "+" ++ l ++ CRLF ++ r) with (x2b :: l ++ CRLF ++ r). cbv iota.
    destruct (byte_eq_dec x2b x2b); [|done]. unfold pbind. by rewrite whole_app.
  - rewrite <- !app_assoc. change (bs "-" ++ l ++ CRLF ++ r) with (x2d :: l ++ CRLF ++ r). cbv iota.
    destruct (byte_eq_dec x2b x2d); [done|]. destruct (byte_eq_dec x2d x2d); [|done]. unfold pbind. by rewrite whole1_app.
  - rewrite <- !app_assoc. change (bs ":" ++ l ++ CRLF ++ r) with (x3a :: l ++ CRLF ++ r). cbv iota.
    destruct (byte_eq_dec x2b x3a); [done|]. destruct (byte_eq_dec x2d x3a); [done|]. destruct (byte_eq_dec x3a x3a); [|done].
    unfold pbind. rewrite whole1_app by done. unfold pret. by rewrite (number_is l z R).
  - rewrite <- !app_assoc. change (bs "$" ++ l ++ CRLF ++ r) with (x24 :: l ++ CRLF ++ r). cbv iota.
    destruct (byte_eq_dec x2b x24); [done|]. destruct (byte_eq_dec x2d x24); [done|]. destruct (byte_eq_dec x3a x24); [done|]. destruct (byte_eq_dec x24 x24); [|done].
    unfold pbind. rewrite whole1_app by done. unfold bulk_tail. rewrite (number_is l z R). by replace (z <? 0)%Z with true by lia.
  - rewrite <- !app_assoc. change (bs "$" ++ l ++ CRLF ++ d ++ CRLF ++ r) with (x24 :: l ++ CRLF ++ d ++ CRLF ++ r). cbv iota.
    destruct (byte_eq_dec x2b x24); [done|]. destruct (byte_eq_dec x2d x24); [done|]. destruct (byte_eq_dec x3a x24); [done|]. destruct (byte_eq_dec x24 x24); [|done].
    unfold pbind. rewrite whole1_app by done. unfold bulk_tail. rewrite (number_is l _ R). replace (Z.of_nat (length d) <? 0)%Z with false by lia.
    unfold pbind, take_n. rewrite app_length. replace (_ <? _)%N with false by lia.
    replace (N.to_nat (Z.to_N (Z.of_nat (length d)))) with (length d) by lia.
    rewrite firstn_app, skipn_app, Nat.sub_diag, firstn_all, skipn_all, firstn_O, skipn_O, app_nil_r. cbn [app]. by rewrite tag_app.
  - rewrite <- !app_assoc. change (bs "*" ++ l ++ CRLF ++ r) with (x2a :: l ++ CRLF ++ r). cbv iota.
    destruct (byte_eq_dec x2b x2a); [done|]. destruct (byte_eq_dec x2d x2a); [done|]. destruct (byte_eq_dec x3a x2a); [done|].
    destruct (byte_eq_dec x24 x2a); [done|]. destruct (byte_eq_dec x2a x2a); [|done].
    unfold pbind. rewrite whole1_app by done. unfold array_tail. rewrite (number_is l z R). by replace (z <? 0)%Z with true by lia.
  - rewrite <- !app_assoc. change (bs "*" ++ l ++ CRLF ++ w ++ r) with (x2a :: l ++ CRLF ++ w ++ r). cbv iota.
    destruct (byte_eq_dec x2b x2a); [done|]. destruct (byte_eq_dec x2d x2a); [done|]. destruct (byte_eq_dec x3a x2a); [done|].
    destruct (byte_eq_dec x24 x2a); [done|]. destruct (byte_eq_dec x2a x2a); [|done].
    unfold pbind. rewrite whole1_app by done. unfold array_tail. rewrite (number_is l _ R). replace (Z.of_nat (length fs) <? 0)%Z with false by lia.
    replace (Z.to_N (Z.of_nat (length fs))) with (N.of_nat (length fs)) by lia.
    rewrite (elems_read _ n w fs); [done| |done| |lia].
    + intros j r' f' Lj Wj. apply IH; [done|done|lia].
    + rewrite !app_length in L. cbn in L. lia.
  - done.
Qed.
Lemma wire_read w f r : wire w f -> parse (w ++ r) = POk f r.
Proof. intros W. apply (alt_read (length (w ++ r))); [done|rewrite app_length; lia|lia]. Qed.
Lemma parse_explained i : explained i (parse i).
Proof. apply alt_explained. lia. Qed.

(** ** C100 *)
Theorem C100_read b f r : parse b = POk f r <-> exists w, b = w ++ r /\ wire w f.
Proof.
  split.
  - intros H. pose proof (parse_explained b) as E. by rewrite H in E.
  - intros (w & -> & W). by apply wire_read.
Qed.
Theorem C100_wait b : parse b = PIncomplete <-> unfinished b.
Proof.
  split.
  - intros H. pose proof (parse_explained b) as E. rewrite H in E. destruct E as (u & f & W). exists u, f. split; [|done].
    intros ->. pose proof (wire_read _ _ [] W) as P. rewrite !app_nil_r in P. congruence.
  - intros (u & f & N & W). pose proof (wire_read _ _ [] W) as P. rewrite app_nil_r in P.
    destruct (parse_stable b u) as [S1 S2]. destruct (parse b) as [g r| |]; [|done|by rewrite S2 in P].
    rewrite (S1 g r eq_refl) in P. injection P as _ P. by apply app_eq_nil in P as [_ ->].
Qed.
Theorem C100_refuse b : parse b = PError <-> hopeless b.
Proof.
  split.
  - intros H u w r f E W. pose proof (wire_read w f r W) as P. rewrite <- E in P. destruct (parse_stable b u) as [_ S2]. by rewrite S2 in P.
  - intros H. destruct (parse b) as [f r| |] eqn:P; [| |done].
    + apply C100_read in P as (w & -> & W). by destruct (H [] w r f ltac:(by rewrite app_nil_r)).
    + apply C100_wait in P as (u & f & _ & W). by destruct (H u (b ++ u) [] f ltac:(by rewrite app_nil_r)).
Qed.
(** A connection: the sentences received, one after the other, and how it ends. *)
Theorem C100_connection chunks fs e : Forall (fun c => c <> []) chunks ->
  conn_requests chunks = (fs, e) <->
  exists w rest, concat chunks = w ++ rest /\ wires w fs /\
    match e with
    | EndClean => rest = []
    | EndReset => rest <> [] /\ unfinished rest
    | EndParse => hopeless rest
    end.
Proof.
  intros C. rewrite segmentation by done. generalize (S (length (concat chunks))), (ltac:(lia) : (length (concat chunks) < S (length (concat chunks)))%nat).
  generalize (concat chunks). clear C chunks. intros s fuel L. split.
  - revert s fs e L; induction fuel as [|fuel IH]; intros s fs e L H; [lia|]. cbn [stream_frames] in H.
    destruct (parse s) as [f r| |] eqn:P.
    + pose proof (parse_progress _ _ _ P) as LR. apply C100_read in P as (w & -> & W).
      destruct (stream_frames fuel r) as [fs' e'] eqn:R. injection H as <- <-.
      destruct (IH r fs' e' ltac:(lia) R) as (w' & rest & -> & Ws & K). exists (w ++ w'), rest.
      split; [by rewrite app_assoc|]. split; [by constructor|done].
    + injection H as <- <-. exists [], s. split; [done|]. split; [constructor|].
      destruct (bool_decide_reflect (s = [])) as [E|E]; [done|]. split; [done|]. by apply C100_wait.
    + injection H as <- <-. exists [], s. split; [done|]. split; [constructor|]. by apply C100_refuse.
  - intros (w & rest & -> & W & K). revert fuel L. induction W as [|w f ws fs Wf W IH]; intros fuel L; (destruct fuel as [|fuel]; [lia|]); cbn [stream_frames app].
    + destruct e.
      * by subst rest.
      * destruct K as [N U]. apply C100_wait in U. rewrite U. by rewrite bool_decide_eq_false_2.
      * apply C100_refuse in K. by rewrite K.
    + rewrite <- app_assoc in *. rewrite (wire_read _ _ _ Wf), IH; [done|]. pose proof (wire_pos _ _ Wf). rewrite app_length in L. lia.
Qed.
Print Assumptions C100_read. Print Assumptions C100_wait. Print Assumptions C100_refuse. Print Assumptions C100_connection.
Example C100_case :
  wire (bs "*2" ++ CRLF ++ (bs "$03 bytes" ++ CRLF ++ bs "a" ++ CRLF ++ CRLF) ++ (bs ":zzz" ++ CRLF) ++ []) (FArray [FBulk (bs "a" ++ CRLF); FInteger 0]) /\
  unfinished (bs "$99999999999999999999999") /\ hopeless (bs "*1" ++ CRLF ++ bs "hello").
Proof.
  split; [|split; [by apply C100_wait|by apply C100_refuse]].
  assert (O : forall l, forallb not_crlf l = true -> one_line l).
  { intros l H. rewrite forallb_forall in H. split; intros I; specialize (H _ I); by vm_compute in H. }
  apply (wire_array (bs "2")); [done|by apply O|apply (number_read (bs "2"))|].
  apply wires_cons; [apply (wire_bulk (bs "03 bytes") (bs "a" ++ CRLF)); [done|by apply O|apply (number_read (bs "03 bytes"))]|].
  apply wires_cons; [apply (wire_int (bs "zzz")); [done|by apply O|apply (number_read (bs "zzz"))]|constructor].
Qed.
