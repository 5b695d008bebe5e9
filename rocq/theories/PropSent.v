(** What the leader sends as a snapshot (C104). *)
From Verif Require Import BytesFacts BincodeFacts SpecBincode Snapshot DictFacts PropReplica.
Import ListNotations.
Open Scope N_scope.

Transparent all_slots.
Lemma all_slots_eq : all_slots = slots_from 0 (N.to_nat slot_size).
Proof. unfold all_slots. exact eq_refl. Qed.
Opaque all_slots.
Lemma list_eq_nth {A} (l m : list A) : (forall i, nth_error m i = nth_error l i) -> m = l.
Proof.
  revert m. induction l as [|x l IH]; intros [|y m] H.
  - done.
  - by specialize (H O).
  - by specialize (H O).
  - f_equal; [by injection (H O)|]. apply IH. intros i. apply (H (S i)).
Qed.

(** A request for a slot is answered with that slot as it is, a request for the number after the last slot with all
    slots in order, and any other number is out of bounds. *)
Theorem C104_slots (slot : N) (b : db) (o : option (list (N * dict))) :
  snapshot_slots slot b = o <->
  match o with
  | None => 16384 < slot
  | Some l =>
      slot < 16384 /\ l = [(slot, b slot)] \/
      slot = 16384 /\ length l = N.to_nat 16384 /\ forall i x, nth_error l i = Some x -> x = (N.of_nat i, b (N.of_nat i))
  end.
Proof.
  unfold snapshot_slots. rewrite all_slots_eq. change 16384 with slot_size. generalize slot_size. intros sz.
  assert (A : forall n k i x, nth_error (slots_from k n) i = Some x -> x = k + N.of_nat i).
  { induction n as [|n IH]; intros k [|i] x; cbn; try done; [intros [= <-]; lia|]. intros H. apply IH in H. lia. }
  assert (L : forall n k, length (slots_from k n) = n) by (induction n; intros k; cbn; congruence).
  assert (M : forall i x, nth_error (map (fun i => (i, b i)) (slots_from 0 (N.to_nat sz))) i = Some x -> x = (N.of_nat i, b (N.of_nat i))).
  { intros i x H. rewrite nth_error_map in H. destruct (nth_error _ i) as [y|] eqn:E; [|done].
    apply A in E. cbn in H. injection H as <-. by rewrite E. }
  assert (LM : length (map (fun i => (i, b i)) (slots_from 0 (N.to_nat sz))) = N.to_nat sz) by (rewrite map_length; apply L).
  generalize dependent (map (fun i => (i, b i)) (slots_from 0 (N.to_nat sz))). intros m M LM. clear A L.
  destruct (N.eqb_spec slot sz) as [->|NE].
  - split.
    + intros <-. right. done.
    + destruct o as [l|]; [|lia]. intros [[H _]|(_ & H1 & H2)]; [lia|]. f_equal.
      apply list_eq_nth. intros i. destruct (nth_error l i) as [y|] eqn:E.
      * destruct (nth_error m i) as [z|] eqn:F; [by rewrite (M i z F), (H2 i y E)|].
        apply nth_error_None in F. assert (i < length l)%nat by (apply nth_error_Some; congruence). lia.
      * apply nth_error_None in E. apply nth_error_None. lia.
  - destruct (N.ltb_spec slot sz) as [LT|GE].
    + split; [intros <-; by left|]. destruct o as [l|]; [|lia]. intros [[_ ->]|[H _]]; [done|lia].
    + split; [intros <-; lia|]. destruct o as [l|]; [|done]. intros [[H _]|[H _]]; lia.
Qed.
Print Assumptions C104_slots.

(** ** The stream determines the snapshot *)

Lemma put_option_inj (i j : N) (a b : bytes) : i < 2 ^ 64 -> j < 2 ^ 64 ->
  put_option put_u64 (Some i) ++ a = put_option put_u64 (Some j) ++ b -> i = j /\ a = b.
Proof.
  intros Hi Hj E. unfold put_option in E. rewrite <- !app_assoc in E.
  assert (X : put_u64 i ++ a = put_u64 j ++ b).
  { apply (app_inv_head (put_u8 1)). exact E. }
  assert (Y : get_le 8 (put_u64 i ++ a) = get_le 8 (put_u64 j ++ b)) by (by rewrite X).
  unfold put_u64 in Y. rewrite !get_le_put in Y by (change (256 ^ N.of_nat 8) with (2 ^ 64); done).
  injection Y as -> ->. done.
Qed.
Lemma put_none_some (i : N) (a : bytes) : put_option put_u16 None <> put_option put_u64 (Some i) ++ a.
Proof. intros E. unfold put_option, put_u8 in E. cbn in E. discriminate E. Qed.

(** Nothing is lost on the sending side: two snapshots with the same bytes are the same snapshot.  (The other side
    cannot read them, C53: it expects two bytes for a slot number where eight are sent.) *)
Theorem C104_stream_is_faithful (ho : horder) (l l' : list (N * dict)) :
  horder_ok ho ->
  (forall i d, In (i, d) l -> i < 2 ^ 64 /\ dict_fits d) -> (forall i d, In (i, d) l' -> i < 2 ^ 64 /\ dict_fits d) ->
  put_snapshot ho l = put_snapshot ho l' -> l = l'.
Proof.
  intros HO. unfold put_snapshot. revert l'. induction l as [|[i d] l IH]; intros [|[j e] l'] F F' E; cbn [map concat fst snd] in E.
  - done.
  - exfalso. rewrite <- !app_assoc in E. by apply put_none_some in E.
  - exfalso. rewrite <- !app_assoc in E. symmetry in E. by apply put_none_some in E.
  - rewrite <- !app_assoc in E. destruct (F i d (or_introl eq_refl)) as [Hi Hd]. destruct (F' j e (or_introl eq_refl)) as [Hj He].
    apply put_option_inj in E as [-> E]; [|done|done].
    pose proof (codec_dict ho HO d (concat (map (fun p => put_option put_u64 (Some (fst p)) ++ put_dict ho (snd p)) l) ++ put_option put_u16 None) Hd) as C.
    pose proof (codec_dict ho HO e (concat (map (fun p => put_option put_u64 (Some (fst p)) ++ put_dict ho (snd p)) l') ++ put_option put_u16 None) He) as C'.
    rewrite E, C' in C. injection C as <- R.
    f_equal. apply IH.
    + intros a b I. apply F. by right.
    + intros a b I. apply F'. by right.
    + by symmetry.
Qed.
Print Assumptions C104_stream_is_faithful.

Example C104_case :
  snapshot_slots 5 (fun i => if i =? 5 then c53_d else dict_empty) = Some [(5, c53_d)] /\
  dict_fits c53_d /\ put_snapshot rho [(5, c53_d)] <> put_snapshot rho [(5, dict_empty)].
Proof.
  split; [vm_compute; reflexivity|]. split; [|vm_compute; discriminate].
  split; [by vm_compute|]. split; [by vm_compute|]. intros k x H. apply elem_of_map_to_list, elem_of_list_In in H.
  vm_compute in H. destruct H as [H|[]]. injection H as <- <-. split; [by vm_compute|].
  split; [|split]; by vm_compute.
Qed.
