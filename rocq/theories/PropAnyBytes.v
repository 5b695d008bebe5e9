(** C117 for a whole process: bytes from sockets, background tasks, any clock. *)
From Verif Require Import PropProcess ProcessFacts PropAnytime.
Theorem C117_bytes : exists num, reads_counters num /\ forall en b m max evs x,
  horder_ok (e_ho en) -> holds b m -> orderly m -> psteps en evs (pr_start b max) = Some x ->
  (forall i f q, In f (fst (conn_requests (arrived i evs))) -> from_frame f = Some q -> separable q) ->
  exists l fs m', replay en num m l fs m' /\ holds (cs_db (ld_cl (pr_ld x))) m' /\
    Forall (fun d => doer d < length (pr_socks x) \/ background_deed (length (pr_socks x)) d) l /\
    forall i s, pr_socks x !! i = Some s -> exists served rest qs more ps rs cut,
      fst (conn_requests (arrived i evs)) = served ++ rest /\ Forall2 (fun f q => from_frame f = Some q) served (qs ++ more) /\
      merged qs ps rs /\ so_out s = concat (map write rs) ++ cut /\ (cut <> [] -> failed i evs) /\
      (exists last, fated i (dids l) fs = map inl ps ++ last) /\ (exists future, flat_map script (flat_map parts (qs ++ more)) = acts i l ++ future) /\
      (forall h, so_end s = Some h -> match h with
         | HClean => rest = [] /\ snd (conn_requests (arrived i evs)) = EndClean /\ closed i evs
         | HError => failed i evs \/ (exists f rest', rest = f :: rest' /\ from_frame f = None) \/
             rest = [] /\ (snd (conn_requests (arrived i evs)) = EndParse \/ snd (conn_requests (arrived i evs)) = EndReset /\ closed i evs)
         | _ => False end) /\
      (waits en x i -> rest = [] /\ more = [] /\ cut = [] /\ fated i (dids l) fs = map inl ps /\ acts i l = flat_map script (flat_map parts qs) /\
         ~ closed i evs /\ snd (conn_requests (arrived i evs)) <> EndParse).
Proof.
  destruct C117_server as (num & RC & C). exists num. split; [done|]. intros en b m max evs x HO SH OR H PR.
  destruct (pr_fine_steps _ _ _ _ _ H) as (ins & L & LI & LC & AN & NE & SF).
  assert (CR : forall i, conn_requests (arrived i evs) = stream (concat (arrived i evs))) by (intros i; by apply requests_stream).
  assert (FI : Forall (Forall separable) ins).
  { apply List.Forall_forall. intros li IN. apply elem_of_list_In, elem_of_list_lookup in IN as (i & IN). pose proof (lookup_lt_Some _ _ _ IN) as LT.
    destruct (lookup_lt_is_Some_2 (pr_socks x) i) as [s S]; [lia|]. destruct (lookup_lt_is_Some_2 (cs_conns (ld_cl (pr_ld x))) i) as [k K]; [lia|].
    destruct (SF i s k S K) as (sv & r & tl & R & F & _). rewrite nth_lookup, IN in F. cbn in F. apply List.Forall_forall. intros q Q.
    apply elem_of_list_In, elem_of_list_lookup in Q as (n & Q). destruct (Forall2_lookup_r _ _ _ _ _ F Q) as (f & Fn & E). apply (PR i f q); [|done].
    rewrite CR, (reads_stream _ _ _ R). cbn [fst]. apply in_or_app. left. apply elem_of_list_In. by eapply elem_of_list_lookup_2. }
  destruct (C en b m ins (behind evs) (pr_ld x) HO SH OR FI L) as (l & fs & m' & P & _ & S1 & DO & CO).
  exists l, fs, m'. do 2 (split; [done|]). split; [by rewrite <- LI|]. intros i s S.
  destruct (lookup_lt_is_Some_2 (cs_conns (ld_cl (pr_ld x))) i) as [k K]; [apply lookup_lt_Some in S; lia|].
  assert (CL : closed i evs <-> so_fin s = true).
  { rewrite (fin_closed _ _ _ _ _ i H). split; [intros (s1 & S1' & F1); congruence|by exists s]. }
  destruct (SF i s k S K) as (sv & r & cut & R & F & O & T & W). destruct (CO i k K) as (qs & more & ps & E & M & LA & FU & ID).
  rewrite E in F, FU. exists sv, (fst (stream r)), qs, more, ps, (k_out k), cut. rewrite CR, (reads_stream _ _ _ R). cbn [fst snd].
  do 4 (split; [done|]). split; [intros N; by destruct (T N)|]. do 2 (split; [done|]). split.
  - intros h EH. rewrite EH in W. destruct h; cbn [why] in W; try done.
    + destruct W as [-> W]. split; [done|]. split; [done|]. by apply CL.
    + destruct W as [W|[(f & r' & W1 & W2)|[W|(W1 & W2 & W3)]]]; [by left| | |].
      * right; left. rewrite stream_eq, W1. destruct (stream r') as [fs' e']. by exists f, fs'.
      * right; right. rewrite stream_eq, W. split; [done|]. by left.
      * right; right. rewrite stream_eq, W2. split; [done|]. right. rewrite bool_decide_false by done. split; [done|by apply CL].
  - intros WA. destruct (waits_rest _ _ _ _ _ S K WA) as (W1 & W2 & W3 & W4 & W5 & W6). rewrite W1 in W. destruct (ID W2) as (I1 & I2 & I3). subst r.
    rewrite W5. cbn [concat]. rewrite app_nil_r, stream_eq, W4. split; [done|]. split; [by rewrite I1, W3|]. split.
    + destruct cut as [|a cut]; [done|]. destruct (T ltac:(done)) as (_ & f & n & X & _). by rewrite W2 in X.
    + do 2 (split; [done|]). split; [intros C1; apply CL in C1; congruence|]. cbn. by destruct (bool_decide _).
Qed.
Print Assumptions C117_bytes.
(** The execution of C113_bytes_case with a clock that runs backwards. *)
Definition c117_back : list (N * pevent) := map (fun ev => ((100 - fst ev)%N, snd ev)) c113_evs.
Example C117_bytes_case :
  ~ StronglySorted N.le (map fst c117_back) /\
  (forall i f q, In f (fst (conn_requests (arrived i c117_back))) -> from_frame f = Some q -> separable q) /\
  option_map (fun x => map (fun s => (so_out s, so_end s, so_buf s)) (pr_socks x)) (psteps ex_env c117_back (pr_start db_empty 1)) =
    Some [(write frame_ok ++ bs "$1", Some HError, []); (write (FBulk (bs "v")), Some HError, bs "?")].
Proof.
  split; [|split; [|by vm_compute]].
  - intros S. unfold c117_back in S. apply StronglySorted_inv in S as [_ S]. rewrite List.Forall_forall in S.
    assert (C : (fst (hd (0%N, PAccept) c117_back) <= List.last (map fst c117_back) 0)%N) by (apply S; vm_compute; tauto).
    vm_compute in C. by apply C.
  - intros [|[|i]] f q.
    + intros H. vm_compute in H. destruct H as [<-|[<-|[]]]; intros E; vm_compute in E; injection E as <-; by repeat constructor.
    + intros H. vm_compute in H. destruct H as [<-|[]]; intros E; vm_compute in E; injection E as <-; by repeat constructor.
    + intros H. by vm_compute in H.
Qed.
