(** Lemmas about what arrives over a connection and what requests store. *)
From Verif Require Export ServerFacts.

Lemma line_one_line i l r : take_line i = POk l r -> one_line l.
Proof.
  revert l r; induction i as [|c i IH]; intros l r; cbn; [done|]. destruct (not_crlf c) eqn:E.
  - destruct (take_line i) as [l' r'| |]; [|done|done]. intros H. injection H as <- <-.
    destruct (IH _ _ eq_refl) as [A B]. apply not_crlf_spec in E as [E1 E2].
    split; intros [X|X]; congruence || tauto.
  - intros H. injection H as <- <-. split; intros [].
Qed.
Lemma atoi0_fits b : fits_i64 (atoi_or_0 b).
Proof. unfold atoi_or_0. destruct (atoi_i64 b) eqn:E; [by eapply atoi_fits|]. unfold fits_i64. lia. Qed.
Lemma elems_wire fuel g n i l r : (forall j f k, g j = POk f k -> wire f) -> parse_elems fuel g n i = POk l r -> Forall wire l.
Proof.
  intros G. revert n i l r; induction fuel as [|fuel IH]; intros n i l r; cbn [parse_elems].
  - destruct (n =? 0)%N; [|done]. intros H. injection H as <- <-. constructor.
  - destruct (n =? 0)%N; [intros H; injection H as <- <-; constructor|].
    destruct (g i) as [a i'| |] eqn:E; [|done|done].
    destruct (parse_elems fuel g (n - 1) i') as [l' r'| |] eqn:E2; [|done|done].
    intros H. injection H as <- <-. constructor; [by eapply G|]. by eapply IH.
Qed.
Ltac unbind1 H := apply pbind_ok in H; let a := fresh "a" in let i := fresh "i" in let H1 := fresh "H" in
    destruct H as (a & i & H1 & H).
Lemma alt_wire fuel i f r : parse_alt fuel i = POk f r -> wire f.
Proof.
  revert i f r; induction fuel as [|fuel IH]; intros i f r; cbn [parse_alt]; [done|].
  intros H. repeat (apply palt_ok in H as [H|H]).
  - unfold parse_simple in H. do 3 unbind1 H. injection H as <- <-. by eapply line_one_line.
  - unfold parse_error in H. unbind H. by injection H as <- <-.
  - unfold parse_int in H. do 3 unbind1 H. injection H as <- <-. apply atoi0_fits.
  - unfold parse_bulk in H. unbind H. destruct (_ <? 0)%Z; [|unbind H]; by injection H as <- <-.
  - unfold parse_array in H. unbind H. destruct (_ <? 0)%Z; [by injection H as <- <-|].
    destruct (parse_elems _ _ _ _) as [fs r'| |] eqn:E; [|done|done]. injection H as <- <-.
    apply wire_array. by eapply elems_wire.
  - unfold parse_ping in H. unbind H. by injection H as <- <-.
Qed.
Lemma read_wire chunks buf f b cs : read_frame chunks buf = inl (f, b, cs) -> wire f.
Proof.
  revert buf; induction chunks as [|c chunks IH]; intros buf; cbn [read_frame];
    destruct (parse buf) as [g r| |] eqn:E; try done; try (intros H; injection H as <- <- <-; by eapply alt_wire).
  destruct c; [done|]. apply IH.
Qed.
Lemma conn_wire fuel chunks buf : Forall wire (fst (conn_frames fuel chunks buf)).
Proof.
  revert chunks buf; induction fuel as [|fuel IH]; intros chunks buf; [constructor|]. cbn [conn_frames].
  destruct (read_frame chunks buf) as [[[f b] cs]|ce] eqn:E; [|constructor].
  specialize (IH cs b). destruct (conn_frames fuel cs b). constructor; [by eapply read_wire|done].
Qed.

(** ** The arguments of requests *)
Definition yields {A} (Q : A -> Prop) (p : qparser A) : Prop :=
  forall c a c', Forall wire c -> p c = QOk a c' -> Q a /\ Forall wire c'.
Lemma yields_ret {A} (Q : A -> Prop) (a : A) : Q a -> yields Q (qret a).
Proof. intros H c a' c' W E. by injection E as <- <-. Qed.
Lemma yields_bind {A B} (Q : A -> Prop) (R : B -> Prop) (p : qparser A) (g : A -> qparser B) :
  yields Q p -> (forall a, Q a -> yields R (g a)) -> yields R (qbind p g).
Proof. intros P G c b c' W E. apply qbind_ok in E as (a & c1 & E1 & E2). apply P in E1 as [Qa W1]; [|done]. by eapply G. Qed.
Lemma yields_next {A} (Q : A -> Prop) (conv : frame -> option A) :
  (forall f a, wire f -> conv f = Some a -> Q a) -> yields Q (next conv).
Proof.
  intros C c a c' W E. apply next_ok in E as (f & -> & E). split; [|by eapply Forall_inv_tail].
  eapply C; [by eapply Forall_inv|done].
Qed.
Lemma yields_rest {A} (Q : A -> Prop) (conv : frame -> option A) :
  (forall f a, wire f -> conv f = Some a -> Q a) -> yields (Forall Q) (rest_of conv).
Proof.
  intros C c. induction c as [|f c IH]; intros l c' W; cbn [rest_of].
  - intros E. injection E as <- <-. done.
  - destruct (conv f) as [a|] eqn:E; [|done]. pose proof (Forall_inv W). apply Forall_inv_tail in W.
    destruct (rest_of conv c) as [l' c2| |]; [|done|done]. intros H'. injection H' as <- <-.
    edestruct IH as [IH1 IH2]; [done|reflexivity|]. split; [|done]. constructor; [first [by eapply (C f g); [| |exact E1|exact E2]|by eapply C]|done].
Qed.
Lemma yields_many {A} (Q : A -> Prop) (conv : frame -> option A) :
  (forall f a, wire f -> conv f = Some a -> Q a) -> yields (Forall Q) (many conv).
Proof.
  intros C. eapply yields_bind; [by apply (yields_next Q)|]. intros a Qa.
  eapply yields_bind; [by apply (yields_rest Q)|]. intros l Ql. apply yields_ret. by constructor.
Qed.
Lemma yields_rest_pairs {A B} (Q : A * B -> Prop) (c1 : frame -> option A) (c2 : frame -> option B) :
  (forall f g a b, wire f -> wire g -> c1 f = Some a -> c2 g = Some b -> Q (a, b)) -> yields (Forall Q) (rest_pairs c1 c2).
Proof.
  intros C c. remember (length c) as n eqn:E. revert c E. induction n as [n IH] using lt_wf_ind. intros c -> l c' W.
  destruct c as [|f [|g c]]; cbn [rest_pairs].
  - intros H. injection H as <- <-. done.
  - destruct (c1 f); done.
  - destruct (c1 f) as [a|] eqn:E1; [|done]. destruct (c2 g) as [b|] eqn:E2; [|done].
    pose proof (Forall_inv W). apply Forall_inv_tail in W. pose proof (Forall_inv W). apply Forall_inv_tail in W.
    destruct (rest_pairs c1 c2 c) as [l' c3| |] eqn:E3; [|done|done]. intros H'. injection H' as <- <-.
    edestruct (IH (length c)) as [I1 I2]; [cbn; lia|reflexivity|done|exact E3|]. split; [|done]. constructor; [first [by eapply (C f g); [| |exact E1|exact E2]|by eapply C]|done].
Qed.
Lemma yields_pairs {A B} (Q : A * B -> Prop) (c1 : frame -> option A) (c2 : frame -> option B) :
  (forall f g a b, wire f -> wire g -> c1 f = Some a -> c2 g = Some b -> Q (a, b)) -> yields (Forall Q) (many_pairs c1 c2).
Proof.
  intros C c l c' W E. unfold many_pairs in E. apply qbind_ok in E as (a & d1 & E1 & E). apply qbind_ok in E as (b & d2 & E2 & E).
  apply next_ok in E1 as (f & -> & E1). apply next_ok in E2 as (g & -> & E2).
  pose proof (Forall_inv W). apply Forall_inv_tail in W. pose proof (Forall_inv W). apply Forall_inv_tail in W.
  apply qbind_ok in E as (l' & d3 & E3 & E). injection E as <- <-.
  edestruct (yields_rest_pairs Q c1 c2 C) as [I1 I2]; [exact W|exact E3|]. split; [|done]. constructor; [first [by eapply (C f g); [| |exact E1|exact E2]|by eapply C]|done].
Qed.
(** Parsers that only have to leave frames that arrived. *)
Lemma yields_suff {A} (p : qparser A) : suffixing p -> yields (fun _ => True) p.
Proof. intros S c a c' W E. apply S in E as [fs ->]. split; [done|]. apply Forall_app in W. exact (proj2 W). Qed.
Lemma yields_weak {A} (Q : A -> Prop) (p : qparser A) : (forall a, Q a) -> suffixing p -> yields Q p.
Proof. intros H S c a c' W E. split; [done|]. apply S in E as [fs ->]. apply Forall_app in W. exact (proj2 W). Qed.
Lemma data_printable f a : wire f -> as_data f = Some a -> printable a.
Proof. destruct f; try done; intros W H; by injection H as <-. Qed.
Lemma int_fits f z : wire f -> as_int f = Some z -> fits_i64 z.
Proof. destruct f; cbn; try done; intros W H; try (by eapply atoi_fits). by injection H as <-. Qed.

Lemma trailing_suff {S} (step : bytes -> S -> option (qparser S)) s : (forall t s p, step t s = Some p -> suffixing p) ->
  suffixing (trailing step s).
Proof.
  intros ST. apply suffixing_bind; [|intros ?; apply suffixing_ret].
  intros c [s' j] c' E. by eapply options_suff in E.
Qed.
Lemma rest_of_suff {A} (conv : frame -> option A) : suffixing (rest_of conv).
Proof. intros c l c' E. apply rest_of_ok in E as [-> _]. exists c. by rewrite app_nil_r. Qed.
Lemma rest_pairs_suff {A B} (c1 : frame -> option A) (c2 : frame -> option B) : suffixing (rest_pairs c1 c2).
Proof.
  intros c. remember (length c) as n eqn:E. revert c E. induction n as [n IH] using lt_wf_ind. intros c -> l c'.
  destruct c as [|f [|g c]]; cbn [rest_pairs].
  - intros H. injection H as <- <-. by exists [].
  - destruct (c1 f); done.
  - destruct (c1 f) as [a|] eqn:E1; [|done]. destruct (c2 g) as [b|] eqn:E2; [|done].
    destruct (rest_pairs c1 c2 c) as [l' c3| |] eqn:E3; [|done|done]. intros H'. injection H' as <- <-.
    destruct (IH (length c) ltac:(cbn; lia) c eq_refl _ _ E3) as [fs ->]. by exists (f :: g :: fs).
Qed.
Lemma defaulted_suff {A} (d : A) p : suffixing p -> suffixing (defaulted d p).
Proof.
  intros H c a c'. unfold defaulted. destruct (p c) eqn:E; [| |done]; intros X; injection X as <- <-; [by eapply H|by exists []].
Qed.
Lemma many_suff {A} (conv : frame -> option A) : suffixing (many conv).
Proof. repeat (apply suffixing_bind; [first [apply suffixing_next|apply rest_of_suff]|intros ?]). apply suffixing_ret. Qed.
Ltac suffs :=
  repeat first [ apply suffixing_ret | apply suffixing_next | apply rest_of_suff | apply many_suff | apply rest_pairs_suff
    | apply defaulted_suff
    | apply trailing_suff; first [exact set_step_suff|exact ex_step_suff|exact limit_step_suff|exact scores_step_suff|apply flag_step_suff
                                 |exact zrange_step_suff|exact restore_step_suff]
    | apply suffixing_bind; [|intros ?] ].
Lemma zadd_suff : suffixing p_zadd.
Proof.
  unfold p_zadd. apply suffixing_bind; [apply suffixing_next|intros k]. apply suffixing_bind.
  - intros c [s' j] c' E. eapply options_suff in E; [done|exact zadd_step_suff].
  - intros [s [f|]]; cbn [snd fst]; [|done]. destruct (as_float f); [|done]. suffs.
Qed.
(** Whatever holds of all values that a frame can carry holds of what a request asks to store. *)
Section Stored.
Context (P : scalar -> Prop) (DP : forall f a, wire f -> as_data f = Some a -> P a).
Ltac thread :=
  repeat first
    [ apply yields_ret
    | apply (yields_bind P); [apply yields_next; exact DP|intros ? ?]
    | apply (yields_bind fits_i64); [apply yields_next; exact int_fits|intros ? ?]
    | apply (yields_bind (Forall P)); [apply yields_many; exact DP|intros ? ?]
    | eapply (yields_bind (Forall (fun e => P (snd e))));
        [apply yields_pairs; intros ? ? ? ? _; cbn [snd]; intros W _ E; exact (DP _ _ W E)|intros ? ?]
    | apply (yields_bind (fun _ => True)); [apply yields_suff; first [exact zadd_suff|suffs; fail]|intros ? _] ].

Definition stores (q : request) : Prop := match q with QRestore _ _ _ _ => True | _ => request_all P q end.
Lemma commands_all : Forall (fun e => yields stores (snd e)) commands.
Proof.
  unfold commands, p_minmax, qmap, p_key, p_key1, p_key2, p_keys, p_key_many, p_expire, p_pop, p_set, p_range, p_restore, qmap.
  repeat (apply List.Forall_cons; [cbn [fst snd]|]); [..|apply List.Forall_nil].
  all: thread.
  all: try first [exact I | assumption].
  (* ZADD *)
  eapply (yields_bind (fun _ => True)).
  - apply yields_suff. intros c [s' j] c' E. eapply options_suff in E; [done|exact zadd_step_suff].
  - intros [s [f|]] _; cbn [snd fst]; [|done]. destruct (as_float f); [|done]. thread. exact I.
Qed.
Lemma lookup_all n t p : Forall (fun e => yields stores (snd e)) t -> lookup_command n t = Some p -> yields stores p.
Proof.
  intros H. induction H as [|[m q] t Hq _ IH]; cbn; [done|]. case_bool_decide; [|done]. intros E. by injection E as <-.
Qed.
Lemma from_frame_stores f q : wire f -> from_frame f = Some q -> stores q.
Proof.
  intros W. unfold from_frame.
  destruct (match f with FArray l => Some l | FPing => Some [FPing] | _ => None end) as [c|] eqn:E; [|done].
  assert (WC : Forall wire c).
  { destruct f; try done; injection E as <-; [|by apply wire_array]. by constructor. }
  destruct (next as_str c) as [n c1| |] eqn:E1; [|done|done]. apply next_ok in E1 as (g & -> & _).
  destruct (lookup_command (lowercase n) commands) as [p|] eqn:E2.
  - destruct (p c1) as [q' [|]| |] eqn:E3; try done. intros H. injection H as <-.
    eapply (lookup_all _ _ _ commands_all E2); [|exact E3]. by eapply Forall_inv_tail.
  - intros H. by injection H as <-.
Qed.
End Stored.

(** ** Sessions *)
Lemma session_tidy en clock oth e fs rs e' o : plain en -> horder_ok (e_ho en) ->
  session en clock oth e fs rs e' o -> Forall wire fs ->
  Forall (fun f => forall q, from_frame f = Some q -> ~ quoting q /\ match q with QRestore _ _ _ _ => request_all printable q | _ => True end) fs ->
  (forall i, others_keep printable (oth i)) -> db_all printable (ef_db e) ->
  Forall (fun r => r = FPong \/ tidy r) rs /\ db_all printable (ef_db e').
Proof.
  intros PE HO S. induction S as [|clock oth e f fs e1 r rs e2 h E S IH|clock oth e f fs e1 h E]; intros W F O D.
  - split; [constructor|done].
  - pose proof (Forall_inv W) as Wf. pose proof (Forall_inv F) as Ff. cbn beta in Ff. unfold serve_frame in E.
    destruct (from_frame f) as [q|] eqn:EF; [|done]. destruct (Ff q eq_refl) as [NQ RQ].
    pose proof (from_frame_stores printable data_printable f q Wf EF) as SP.
    assert (R : request_all printable q) by (destruct q; done).
    pose proof (serve_tidy en _ _ q e e1 r PE HO NQ (O 0%nat) R D E) as T.
    pose proof (serve_keeps printable en (clock 0%nat) (oth 0%nat) q e printable_int (O 0%nat) R D) as K. rewrite E in K.
    destruct IH as [I1 I2]; [by eapply Forall_inv_tail|by eapply Forall_inv_tail|intros i; apply O|done|].
    split; [by constructor|done].
  - pose proof (Forall_inv W) as Wf. pose proof (Forall_inv F) as Ff. cbn beta in Ff. unfold serve_frame in E.
    split; [constructor|]. destruct (from_frame f) as [q|] eqn:EF; [|by injection E as <- _]. destruct (Ff q eq_refl) as [NQ RQ].
    pose proof (from_frame_stores printable data_printable f q Wf EF) as SP.
    assert (R : request_all printable q) by (destruct q; done).
    pose proof (serve_keeps printable en (clock 0%nat) (oth 0%nat) q e printable_int (O 0%nat) R D) as K. by rewrite E in K.
Qed.
Lemma map_write_read_back rs : map write (map read_back rs) = map write rs.
Proof. rewrite map_map. apply map_ext. apply write_read_back. Qed.
Lemma read_back_wf rs : Forall (fun r => r = FPong \/ tidy r) rs -> (N.of_nat (length (concat (map write rs))) < 2 ^ 63)%N ->
  Forall wf_frame (map read_back rs).
Proof.
  intros H L. assert (G : forall r, In r rs -> (N.of_nat (length (write r)) < 2 ^ 63)%N).
  { intros r I. pose proof (write_length_elem r rs I). lia. }
  clear L. induction H as [|r rs Hr H IH]; cbn; constructor.
  - destruct Hr as [->|T].
    + by apply one_line_check.
    + replace (read_back r) with r by (destruct r; done). apply tidy_wf; [done|]. apply G. by left.
  - apply IH. intros x I. apply G. by right.
Qed.
Lemma session_prefix en clock oth e fs1 f fs2 rs e' o : session en clock oth e (fs1 ++ f :: fs2) rs e' o -> from_frame f = None ->
  (session en clock oth e fs1 rs e' None /\ o = Some HError) \/
  (exists h, o = Some h /\ session en clock oth e fs1 rs e' o).
Proof.
  revert clock oth e rs. induction fs1 as [|g fs1 IH]; intros clock oth e rs S N.
  - cbn in S. inversion S; subst; match goal with H : serve_frame _ _ _ _ _ = _ |- _ => unfold serve_frame in H; rewrite N in H; try done; injection H as <- <- end.
    left. split; [constructor|done].
  - inversion S; subst.
    + match goal with H : session _ _ _ _ _ _ _ _ |- _ => apply IH in H as [[H ->]|(h & -> & H)]; [left|right; exists h|done] end;
        (split; [first [by econstructor|done]|first [by econstructor|done]]).
    + right. eexists. split; [done|]. by constructor.
Qed.

(** ** Several keys *)
Lemma count_from rs : (forall z, 0 <= z -> z + Z.of_nat (length rs) < 2 ^ 63 ->
  fold_left (fun n r => match r with POptValue (Some _) | PBool true => wrap_i64 (n + 1) | _ => n end) rs z = z + count_hits rs /\
  0 <= count_hits rs <= Z.of_nat (length rs))%Z.
Proof.
  unfold count_hits. induction rs as [|r rs IH]; intros z Z0 L; cbn [fold_left length]; [lia|]. cbn [length] in L.
  assert (W : forall n, (0 <= n)%Z -> (n + Z.of_nat (length rs) < 2 ^ 63)%Z -> (n < 2 ^ 63 - 1)%Z -> wrap_i64 (n + 1) = (n + 1)%Z).
  { intros n A B C. unfold wrap_i64, z_two63, z_two64. rewrite Z.mod_small; lia. }
  assert (IH0 : (fold_left (fun n r => match r with POptValue (Some _) | PBool true => wrap_i64 (n + 1) | _ => n end) rs 0 = 0 + count_hits rs /\ 0 <= count_hits rs <= Z.of_nat (length rs))%Z) by (apply IH; lia).
  assert (HIT : (fold_left (fun n r => match r with POptValue (Some _) | PBool true => wrap_i64 (n + 1) | _ => n end) rs (wrap_i64 (z + 1)) =
     z + fold_left (fun n r => match r with POptValue (Some _) | PBool true => wrap_i64 (n + 1) | _ => n end) rs (wrap_i64 (0 + 1)) /\
     0 <= fold_left (fun n r => match r with POptValue (Some _) | PBool true => wrap_i64 (n + 1) | _ => n end) rs (wrap_i64 (0 + 1)) <= Z.of_nat (S (length rs)))%Z).
  { rewrite W, W by lia. destruct (IH (z + 1)%Z) as [-> _]; [lia|lia|]. destruct (IH (0 + 1)%Z) as [-> B]; [lia|lia|]. unfold count_hits in *. lia. }
  assert (MISS : (fold_left (fun n r => match r with POptValue (Some _) | PBool true => wrap_i64 (n + 1) | _ => n end) rs z =
     z + fold_left (fun n r => match r with POptValue (Some _) | PBool true => wrap_i64 (n + 1) | _ => n end) rs 0 /\
     0 <= fold_left (fun n r => match r with POptValue (Some _) | PBool true => wrap_i64 (n + 1) | _ => n end) rs 0 <= Z.of_nat (S (length rs)))%Z).
  { destruct (IH z) as [-> B]; [lia|lia|]. unfold count_hits in *. lia. }
  destruct r as [|[]| | | | | | | | | | | | | | |[]]; assumption.
Qed.
Definition keyed (c : bytes -> cmd) : Prop := (c = fun k => CWrite (WDel k)) \/ (c = fun k => CRead (RExists k)).
Lemma keyed_ok c ho now k b : keyed c -> exists r, snd (db_cmd ho now (c k) b) = OOk r.
Proof.
  intros [-> | ->]; destruct (db_cmd_refines_slot ho now (CWrite (WDel k)) b) as [_ R]; 
    destruct (db_cmd_refines_slot ho now (CRead (RExists k)) b) as [_ R2].
  - rewrite R. cbn [flat_cmd wapply]. match goal with |- context [del_apply ?a ?b] => destruct (del_apply a b) as [[? ?] ?] end. cbn. eauto.
  - rewrite R2. cbn [flat_cmd rapply]. match goal with |- context [exists_apply ?a ?b ?c] => destruct (exists_apply a b c) as [? ?] end. cbn. eauto.
Qed.
Lemma run_each c mk en : keyed c ->
  (forall clock oth ks e, serve_request en clock oth (mk ks) e =
    let '(e', rs) := run_cmds (e_ho en) (fun i => clock (S i)) oth (map c ks) e in
    (e', match abind rs (fun l => AOk (FInteger (count_hits l))) with AOk f => inl f | AErr x => inl (FError (err_text en [] x)) | APanic => inr HPanic end)) ->
  forall ks clock oth e, (Z.of_nat (length ks) < 2 ^ 63)%Z ->
  exists z e' rs, each_key en (fun k => mk [k]) clock oth ks e z e' /\
    run_cmds (e_ho en) (fun i => clock (S i)) oth (map c ks) e = (e', AOk rs) /\ z = count_hits rs /\ length rs = length ks.
Proof.
  intros K S ks. induction ks as [|k ks IH]; intros clock oth e L.
  - exists 0%Z, e, []. split; [constructor|]. done.
  - cbn [length] in L. cbn [map run_cmds].
    pose proof (S clock oth [k] e) as S1. cbn [map run_cmds] in S1.
    pose proof (db_exec_cmd (e_ho en) (clock 1%nat) (c k) (ef_db (oth 0%nat e))) as [_ R].
    destruct (keyed_ok c (e_ho en) (clock 1%nat) k (ef_db (oth 0%nat e)) K) as [r Hr]. rewrite Hr in R.
    destruct (db_exec (e_ho en) (clock 1%nat) (c k) (ef_db (oth 0%nat e))) as [b' o]. cbn [snd] in R. rewrite R in *.
    cbn [abind] in S1. specialize (IH (fun i => clock (Datatypes.S i)) (fun i => oth (Datatypes.S i))
      (Effects b' (ef_exp (oth 0%nat e) ++ wo_exp o) (ef_fwd (oth 0%nat e) ++ wo_fwd o)) ltac:(lia)).
    destruct IH as (z & e' & rs & H1 & H2 & H3 & H4). rewrite H2. cbn [abind].
    exists (count_hits [r] + z)%Z, e', (r :: rs). split; [by econstructor|]. split; [done|]. split; [|by cbn; f_equal].
    subst z. unfold count_hits at 3. cbn [fold_left].
    assert (C : forall a, (0 <= a <= 1)%Z -> fold_left (fun n r => match r with POptValue (Some _) | PBool true => wrap_i64 (n + 1) | _ => n end) rs a = (a + count_hits rs)%Z).
    { intros a A. destruct (count_from rs a) as [-> _]; lia. }
    unfold count_hits at 1. cbn [fold_left]. rewrite <- C; [done|].
    change (wrap_i64 (0 + 1)) with 1%Z.
    destruct r as [|[]| | | | | | | | | | | | | | |[]]; lia.
Qed.

(** ** Panics *)
Lemma sound_zgood b : sound_db b <-> (forall k x e, db_contents b k = Some (x, e) -> zgood x).
Proof.
  split.
  - intros H k x e E. destruct x as [| | | |h l]; try exact I. destruct (H _ _ _ _ E). by apply agree_zgood.
  - intros H k h l e E. specialize (H _ _ _ E). split; [|by apply zgood_agree]. destruct H as (m & Hm & -> & ->).
    apply List.Forall_forall. intros n I. apply elem_of_list_In in I. destruct (listing_spec m Hm) as (_ & _ & A).
    apply A in I. by apply (Hm (n_key n)).
Qed.
Definition calm_cmd (c : cmd) : Prop := match c with CWrite w => calm_write w | CRead r => calm_read r end.
Lemma calm_step ho now c b : calm_cmd c -> sound_db b -> snd (db_cmd ho now c b) <> OPanic /\ sound_db (fst (db_cmd ho now c b)).
Proof.
  intros C B. rewrite !sound_zgood in *. pose proof (db_run_calm ho [(now, c)] b) as H1. pose proof (db_run_good ho [(now, c)] b) as H2.
  cbn [db_run] in *. destruct (db_cmd ho now c b) as [b1 r] eqn:E. cbn [fst snd] in *.
  split; [|apply H2; [|done]].
  - apply (fun H => Forall_inv (H1 H B)). by repeat constructor.
  - constructor; [|constructor]. cbn. destruct c; [by apply calm_gentle|done].
Qed.
Lemma run_calm ho clock oth cs e : Forall calm_cmd cs -> (forall i e, sound_db (ef_db e) -> sound_db (ef_db (oth i e))) ->
  sound_db (ef_db e) -> snd (run_cmds ho clock oth cs e) <> APanic /\ sound_db (ef_db (fst (run_cmds ho clock oth cs e))).
Proof.
  revert clock oth e. induction cs as [|c cs IH]; intros clock oth e C O B; [done|]. cbn [run_cmds].
  pose proof (calm_step ho (clock 0%nat) c (ef_db (oth 0%nat e)) (Forall_inv C) (O 0%nat e B)) as [K1 K2].
  pose proof (db_exec_cmd ho (clock 0%nat) c (ef_db (oth 0%nat e))) as [R1 R2].
  destruct (db_exec ho (clock 0%nat) c (ef_db (oth 0%nat e))) as [b' o]. cbn [fst snd] in *. rewrite <- R1, <- R2 in *.
  destruct (wo_res o) as [r|x|]; [|by split|done].
  match goal with |- context [run_cmds ?h ?c ?o ?l ?x] => specialize (IH c o x); destruct (run_cmds h c o l x) as [e2 rs] end.
  destruct IH as [I1 I2]; [by eapply Forall_inv_tail|intros i; apply (O (S i))|done|]. split; [|done]. by destruct rs.
Qed.
Lemma serve_calm en clock oth q e : calm_request q -> (forall i e, sound_db (ef_db e) -> sound_db (ef_db (oth i e))) ->
  sound_db (ef_db e) -> snd (serve_request en clock oth q e) <> inr HPanic /\ sound_db (ef_db (fst (serve_request en clock oth q e))).
Proof.
  intros C O B. destruct (C (clock 0%nat)) as [C1 C2].
  assert (A : forall cs rs, plan_of (clock 0%nat) q = AOk (PCmds cs) -> q <> QSyncsnapshot (match q with QSyncsnapshot s => s | _ => 0%N end) ->
    Forall2 cshape cs rs -> answer en (clock (S (length cs))) q rs <> APanic).
  { intros cs rs P N F. by eapply answer_total. }
  assert (FL : sound_db (db_flushall (ef_db e))).
  { intros k h l x. by rewrite db_raw_contents, flushall_empty. }
  destruct q; try (by split); unfold serve_request;
    (match type of C1 with ?p <> _ => destruct p as [[cs|]|x'|] end; [|by split|by split|done]);
    specialize (C2 cs eq_refl);
    pose proof (run_calm (e_ho en) (fun i => clock (S i)) oth cs e C2 O B) as [K1 K2];
    pose proof (fun rs e' => run_shape (e_ho en) (fun i => clock (S i)) oth cs e e' rs) as RS;
    destruct (run_cmds (e_ho en) (fun i => clock (S i)) oth cs e) as [e1 rs]; cbn [fst snd] in *; (split; [|done]);
    (destruct rs as [l|x'|]; [|done|done]); cbn [abind];
    (match goal with |- context [answer ?a ?b ?c ?d] => destruct (answer a b c d) eqn:EA; [done|done|] end);
    (exfalso; refine (A cs l eq_refl _ (RS _ _ eq_refl) EA); done).
Qed.
Lemma simple_calm q : simple_request q -> calm_request q.
Proof.
  intros S t. destruct q; cbn [simple_request plan_of] in *; try done;
    try (split; [done|]; intros cs H; injection H as <-; repeat constructor; fail).
  - split; [done|]. intros cs H. injection H as <-. clear. induction ks; constructor; done.
  - split; [done|]. intros cs H. injection H as <-. clear. induction ks; constructor; done.
  - destruct (bool_decide (sub = bs "IDLETIME") || bool_decide (sub = bs "idletime"));
      [|destruct (bool_decide (sub = bs "FREQ") || bool_decide (sub = bs "freq"))]; (split; [by destruct ps|]);
      intros cs H; try (destruct ps; [done|]); injection H as <-; repeat constructor.
Qed.

(** ** Requests for a single command *)
Lemma serve_one en clock oth q e c r : plan_of (clock 0%nat) q = AOk (PCmds [c]) ->
  snd (db_cmd (e_ho en) (clock 1%nat) c (ef_db (oth 0%nat e))) = OOk r ->
  ef_db (fst (serve_request en clock oth q e)) = fst (db_cmd (e_ho en) (clock 1%nat) c (ef_db (oth 0%nat e))) /\
  snd (serve_request en clock oth q e) =
    match answer en (clock 2%nat) q [r] with
    | AOk f => inl f
    | AErr x => inl (FError (err_text en (payload_of q) x))
    | APanic => inr HPanic
    end.
Proof.
  intros P R. pose proof (db_exec_cmd (e_ho en) (clock 1%nat) c (ef_db (oth 0%nat e))) as [R1 R2].
  assert (S : serve_request en clock oth q e =
    let '(e', rs) := run_cmds (e_ho en) (fun i => clock (S i)) oth [c] e in
    (e', match abind rs (answer en (clock 2%nat) q) with
         | AOk f => inl f | AErr x => inl (FError (err_text en (payload_of q) x)) | APanic => inr HPanic end)).
  { destruct q; unfold serve_request; try rewrite P; try done. }
  rewrite S. cbn [run_cmds]. destruct (db_exec (e_ho en) (clock 1%nat) c (ef_db (oth 0%nat e))) as [b' o]. cbn [fst snd] in *.
  rewrite R2, R. cbn [abind fst snd ef_db]. done.
Qed.
Lemma db_set_spec ho now k x ea nx b :
  let b' := fst (db_cmd ho now (CWrite (WSet k x ea nx)) b) in
  exists reply, snd (db_cmd ho now (CWrite (WSet k x ea nx)) b) = OOk (PData reply) /\
    (nx <> NxXx_None \/ ea = Last -> reply = seen_data (db_view now b k)) /\
    db_contents b' k = (if set_stores nx (db_view now b k) then Some (DScalar x, set_deadline ea (db_view now b k)) else db_contents b k) /\
    forall j, j <> k -> db_contents b' j = db_contents b j.
Proof.
  destruct (db_cmd_refines_slot ho now (CWrite (WSet k x ea nx)) b) as [C R]. cbn [ckey wkey] in C, R. cbn zeta.
  rewrite C, R. cbn [flat_cmd]. cbn [wapply].
  set (d := snd (next_id (b (get_slot k)))) in *.
  destruct (set_apply now k x ea nx d) as [[d' o] u] eqn:E. cbn [fst snd].
  destruct (set_spec _ _ _ _ _ _ _ _ _ E) as (H1 & H2 & H3).
  exists o. split; [done|]. split; [exact H3|]. split; [change (db_view now b k) with (view now d k); change (db_contents b k) with (contents d k); by destruct (set_stores nx (view now d k))|].
  intros j J. rewrite db_raw_contents, db_cmd_other by done. by rewrite <- db_raw_contents.
Qed.
Lemma db_expire_spec ho now k new nx gl b :
  let b' := fst (db_cmd ho now (CWrite (WExpire k new nx gl)) b) in
  exists r, snd (db_cmd ho now (CWrite (WExpire k new nx gl)) b) = OOk (PBool r) /\
    (r = true -> exists x e, db_view now b k = Some (x, e) /\ db_contents b' k = Some (x, new)) /\
    (r = false -> db_contents b' k = db_contents b k).
Proof.
  destruct (db_cmd_refines_slot ho now (CWrite (WExpire k new nx gl)) b) as [C R]. cbn [ckey wkey] in C, R. cbn zeta.
  rewrite C, R. cbn [flat_cmd]. cbn [wapply].
  set (d := snd (next_id (b (get_slot k)))) in *.
  destruct (expire_apply now k new nx gl d) as [[d' o] u] eqn:E. cbn [fst snd].
  destruct (expire_spec _ _ _ _ _ _ _ _ _ E) as (H1 & H2).
  exists o. split; [done|]. change (db_view now b k) with (view now d k). change (db_contents b k) with (contents d k).
  destruct (view now d k) as [[x e]|]; destruct H2 as [H2 H3].
  - split; intros ->; [|done]. by exists x, e.
  - split; [by intros ->|done].
Qed.
Lemma db_ttl_spec ho now k b : snd (db_cmd ho now (CRead (RTtl k)) b) = OOk (PTtl
  match db_view now b k with
  | None => TtlNotExist
  | Some (_, e) => if (e =? 0)%N then TtlNone else Ttl (e - now)
  end).
Proof.
  destruct (db_cmd_refines_slot ho now (CRead (RTtl k)) b) as [_ R]. rewrite R. cbn [flat_cmd rapply ckey rkey snd]. by rewrite ttl_spec.
Qed.
