(** Properties C23-C26: the queue of outgoing messages. *)
From Verif Require Import Base ListLemmas Dict DictSpec PDict DictProofs PDictKeys Strman Obj ObjSpec ObjProofs OutMsg OutMsgSpec OutMsgProofs
  Swarm SwarmSpec MembersProofs OutMsgRun.

Definition an_elem (n ts r : Z) : velem := {| ve_data := OInt n; ve_ts := ts; ve_robot := r |}.
Definition a_membership : pdict Z Z := pset uintkeyhash intkeycmp (pset uintkeyhash intkeycmp (pset uintkeyhash intkeycmp (pnew 10) 3 1) 14 0) 25 1.
Definition a_history : list oop :=
  [OLeave 7; OJoin 2; OVstig true 1 (OInt 5) (an_elem 10 1 0); OBroadcast (OStr 1 [97]) (OInt 1); OVstig false 1 (OInt 6) (an_elem 0 0 0);
   OSend; OBroadcast (OStr 1 [98]) (OInt 2); OJoin 7; OVstig true 1 (OInt 5) (an_elem 11 2 0); OVstig true 2 (OInt 5) (an_elem 4 9 3); OJoin 9; OLeave 2].
Lemma a_history_ok : Forall (oop_ok true (fun _ => 1) 100) a_history.
Proof. unfold a_history, oop_ok, swid_ok. repeat constructor; try lia. Qed.

(** C23.  For every history the queue never fails.  At every point, sending until the queue is
    empty sends each of the queued messages (as many as the size of the queue) by type:
    broadcasts, swarm lists, puts, queries, joins, leaves.  Over the whole history, the
    broadcasts sent are exactly those asked for, in order; the messages of any other type (but
    lists, C24 and C25) are among those asked for, in the order of the requests. *)
Theorem C23_outmsg_priority_fifo :
  forall fl sidof u ops, 0 <= u < 65536 -> Forall (oop_ok fl sidof u) ops ->
  exists q outs msgs, oq_run oq_new ops = Ok (q, outs) /\ drains q msgs /\ (forall msgs', drains q msgs' -> msgs' = msgs) /\
    oq_size q = wrap32 (zlen msgs) /\ by_priority msgs /\
    of_prio 0 (concat outs ++ msgs) = of_prio 0 (all_asked ops) /\
    (forall n, n <> 1 -> subseq (of_prio n (concat outs ++ msgs)) (of_prio n (all_asked ops))).
Proof.
  intros fl sidof u ops Hu HF. destruct (run_ok fl sidof u Hu ops oq_new (oinv_new _ _ _) HF) as (q & outs & E & I).
  exists q, outs, (pending q). destruct (run_asked fl sidof u Hu ops q outs HF E) as [H0 HS].
  splits; auto.
  - eapply drains_pending; eauto.
  - intros msgs' H. apply (drains_unique q); auto. eapply drains_pending; eauto.
  - apply pending_size.
  - eapply (pending_priority sidof u Hu).
Qed.
Print Assumptions C23_outmsg_priority_fifo.
Example C23_a_run : exists q outs, oq_run oq_new a_history = Ok (q, outs) /\
  concat outs = [MBroadcast (OStr 1 [97]) (OInt 1)] /\
  drains q [MBroadcast (OStr 1 [98]) (OInt 2); MPut 1 (OInt 5) (an_elem 11 2 0); MPut 2 (OInt 5) (an_elem 4 9 3); MQuery 1 (OInt 6) (an_elem 0 0 0);
            MJoin 7; MJoin 9; MLeave 2].
Proof.
  do 2 eexists. split; [vm_compute; reflexivity|]. split; [reflexivity|]. do 2 eexists. split; [vm_compute; reflexivity|].
  split; [reflexivity|]. split; [repeat constructor|reflexivity].
Qed.

(** C24. *)
Theorem C24_announcements_not_redundant :
  forall fl sidof u ops q outs msgs, 0 <= u < 65536 -> Forall (oop_ok fl sidof u) ops ->
  oq_run oq_new ops = Ok (q, outs) -> drains q msgs ->
  (length (of_prio 1 msgs) <= 1)%nat /\
  (of_prio 1 msgs <> [] -> of_prio 4 msgs = [] /\ of_prio 5 msgs = []) /\
  NoDup (of_prio 4 msgs) /\ NoDup (of_prio 5 msgs) /\
  (forall id, ~ (In (MJoin id) msgs /\ In (MLeave id) msgs)) /\
  (forall l, In (MList l) msgs -> NoDup l).
Proof.
  intros fl sidof u ops q outs msgs Hu HF E HD.
  destruct (run_ok fl sidof u Hu ops oq_new (oinv_new _ _ _) HF) as (q' & outs' & E' & I). rewrite E' in E. inversion E; subst q' outs'.
  rewrite (drains_unique q msgs (pending q) HD (drains_pending fl sidof u Hu q I)). destruct I as [V S].
  rewrite !of_prio_pending. unfold queue_n. cbn [Z.eqb Pos.eqb].
  assert (HM : forall (f : Z -> omsg) l, (forall x y, f x = f y -> x = y) -> NoDup l -> NoDup (map f l)).
  { intros f l Hf HN. apply FinFun.Injective_map_NoDup; auto. }
  splits.
  - destruct (si_one u q S) as [-> |(l & -> & _)]; cbn; lia.
  - destruct (si_one u q S) as [-> |(l & -> & -> & -> & _)]; cbn; [congruence|auto].
  - apply HM; [congruence|apply S].
  - apply HM; [congruence|apply S].
  - intros id [H1 H2]. assert (H4 : In (MJoin id) (of_prio 4 (pending q))) by (apply filter_In; auto).
    assert (H5 : In (MLeave id) (of_prio 5 (pending q))) by (apply filter_In; auto). rewrite of_prio_pending in H4, H5.
    apply in_map_iff in H4 as (x & Hx & H4), H5 as (y & Hy & H5). inversion Hx; inversion Hy; subst. eapply (si_disj u q S); eauto.
  - intros l Hl. pose proof (pending_lists u q S) as HL. rewrite Forall_forall in HL. apply (HL _ Hl).
Qed.
Print Assumptions C24_announcements_not_redundant.
Example C24_a_run : exists q outs, oq_run oq_new [OJoin 3; OLeave 4; OList a_membership; OJoin 3; OJoin 14; OLeave 25] = Ok (q, outs) /\
  drains q [MList [3; 14]].
Proof.
  do 2 eexists. split; [vm_compute; reflexivity|]. do 2 eexists. split; [vm_compute; reflexivity|].
  split; [reflexivity|]. split; [repeat constructor|reflexivity].
Qed.

(** C25 (partial).  A robot that hears all the messages of the sender (those already sent and
    then those still queued) in the order they are sent ends with the membership that results
    from the announcements in order, provided no empty list was sent. *)
Theorem C25_announcements_reconstruct_partial :
  forall fl sidof u ops q outs msgs r s, 0 <= u < 65536 -> Forall (oop_ok fl sidof u) ops ->
  oq_run oq_new ops = Ok (q, outs) -> drains q msgs ->
  ~ In (MList []) (concat outs ++ msgs) ->
  mb_isrobotin (fold_left (fun m msg => mb_receive m r msg) (concat outs ++ msgs) mb_new) r s = announced ops (fun _ => false) s.
Proof.
  intros fl sidof u ops q outs msgs r s Hu HF E HD HN.
  destruct (run_ok fl sidof u Hu ops oq_new (oinv_new _ _ _) HF) as (q' & outs' & E' & I). rewrite E' in E. inversion E; subst q' outs'. clear E.
  pose proof (drains_unique q msgs (pending q) HD (drains_pending fl sidof u Hu q I)). subst msgs.
  rewrite receiver_run.
  - apply (run_announced fl sidof u Hu); auto.
  - apply (run_lists fl sidof u Hu ops); auto.
  - apply Forall_forall. intros m Hm ->. auto.
Qed.
Print Assumptions C25_announcements_reconstruct_partial.
Example C25_a_run : exists q outs, oq_run oq_new [OJoin 3; OSend; OList a_membership; OSend; OLeave 25; OJoin 8] = Ok (q, outs) /\
  drains q [MJoin 8; MLeave 25] /\ concat outs = [MJoin 3; MList [3; 25]] /\
  announced [OJoin 3; OSend; OList a_membership; OSend; OLeave 25; OJoin 8] (fun _ => false) 3 = true.
Proof.
  do 2 eexists. split; [vm_compute; reflexivity|]. split; [|split; [reflexivity|vm_compute; reflexivity]].
  do 2 eexists. split; [vm_compute; reflexivity|]. split; [reflexivity|]. split; [repeat constructor|reflexivity].
Qed.

(** The statement is false when a robot announces an empty membership: after join(3) was sent,
    leave(3) followed by the periodic list leaves only an empty list in the queue, which
    receivers ignore (buzzvm.c 441). *)
Definition left_all : pdict Z Z := pset uintkeyhash intkeycmp (pnew 10) 3 0.
Theorem C25_empty_list_refuted :
  let ops := [OJoin 3; OSend; OLeave 3; OList left_all; OSend] in
  Forall (oop_ok true (fun _ => 1) 100) ops /\
  exists q outs, oq_run oq_new ops = Ok (q, outs) /\ drains q [] /\
    announced ops (fun _ => false) 3 = false /\
    mb_isrobotin (fold_left (fun m msg => mb_receive m 9 msg) (concat outs) mb_new) 9 3 = true.
Proof.
  split.
  - unfold oop_ok, swid_ok. repeat constructor; cbn; try lia.
  - do 2 eexists. split; [vm_compute; reflexivity|]. split.
    + exists oq_new, []. repeat split; constructor.
    + split; vm_compute; reflexivity.
Qed.
Print Assumptions C25_empty_list_refuted.

(** C26.  The messages about a key of a stigmergy that are queued are the newest request
    about it since such a message was last sent, and no other. *)
Theorem C26_one_pending_newest :
  forall fl sidof u ops q outs msgs id k, 0 <= u < 65536 -> Forall (oop_ok fl sidof u) ops -> vkey_class fl sidof k = true ->
  oq_run oq_new ops = Ok (q, outs) -> drains q msgs ->
  filter (about id k) msgs = match newest id k ops outs None with Some m => [m] | None => [] end.
Proof.
  intros fl sidof u ops q outs msgs id k Hu HF Hk E HD.
  destruct (run_ok fl sidof u Hu ops oq_new (oinv_new _ _ _) HF) as (q' & outs' & E' & I). rewrite E' in E. inversion E; subst q' outs'. clear E.
  pose proof (drains_unique q msgs (pending q) HD (drains_pending fl sidof u Hu q I)). subst msgs.
  apply (run_newest fl sidof u Hu); auto.
Qed.
Print Assumptions C26_one_pending_newest.
Example C26_a_run : exists q outs, oq_run oq_new a_history = Ok (q, outs) /\
  newest 1 (OInt 5) a_history outs None = Some (MPut 1 (OInt 5) (an_elem 11 2 0)) /\ vkey_class true (fun _ => 1) (OInt 5) = true.
Proof. do 2 eexists. split; [vm_compute; reflexivity|]. split; vm_compute; reflexivity. Qed.
