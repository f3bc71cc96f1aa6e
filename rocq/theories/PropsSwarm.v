(** Properties C32-C35, C57, C58: swarms and neighbors. *)
From Verif Require Import Base ListLemmas Dict DictSpec PDict DictProofs PDictKeys Strman Obj ObjSpec ObjProofs OutMsg OutMsgSpec OutMsgProofs
  Swarm SwarmSpec MembersProofs OutMsgRun SwarmProofs Neighbors NeighborsProofs.

(** C32 (partial).  For every history of swarm operations with arguments in range, all calls
    return what the specification (a membership per known swarm id) prescribes: in() is true
    iff the robot is a member.  Missing: conditions of select() that are non-zero multiples
    of 256 (see below). *)
Theorem C32_own_membership_partial :
  forall u ops, 0 <= u < 65536 -> Forall (swop_ok u) ops ->
  exists s rs ms, sw_run sw_new ops = Ok (s, rs, ms) /\ results_ok (fun _ => None) ops rs.
Proof.
  intros u ops Hu HF. destruct (sw_run_ok u Hu ops sw_new _ (swinv_new u) HF) as (s & rs & ms & oo & outs & E & I & HR & _). eauto.
Qed.
Print Assumptions C32_own_membership_partial.
Example C32_a_run : exists s ms,
  sw_run sw_new [SCreate 1; SIn 1; SJoin 1; SIn 1; SSelect 1 0; SIn 1; SSelect 1 7; SIn 1; SLeave 2; SCreate 2; SLeave 1; SIn 1]
  = Ok (s, [SSwarm 1; SInt 0; SNone; SInt 1; SNone; SInt 0; SNone; SInt 7; SErr; SSwarm 2; SNone; SInt 0], ms).
Proof. do 2 eexists. vm_compute. reflexivity. Qed.
(** The condition is converted to uint8_t: select(256) makes the robot leave. *)
Theorem C32_select_refuted : exists s ms,
  sw_run sw_new [SCreate 1; SSelect 1 256; SIn 1] = Ok (s, [SSwarm 1; SNone; SInt 0], ms) /\
  memb_run [SCreate 1; SSelect 1 256; SIn 1] 1 = Some true.
Proof. do 2 eexists. split; vm_compute; reflexivity. Qed.
Print Assumptions C32_select_refuted.

(** C33.  After any history, the membership in a swarm made by union, intersection, difference
    or others is the boolean combination of the memberships in the operands, as told by the
    following in(); the memberships in other swarms do not change. *)
Definition combines (ops : list swop) (o : swop) (id : Z) (b : bool) : Prop :=
  exists s rs r z ms, sw_run sw_new (ops ++ [o; SIn id]) = Ok (s, rs ++ [r; SInt z], ms) /\ r = SSwarm id /\
    (z <> 0 <-> b = true) /\ length rs = length ops /\
    (forall i, i <> id -> memb_run (ops ++ [o; SIn id]) i = memb_run ops i).
Theorem C33_swarm_algebra :
  forall u ops id a b, 0 <= u < 65536 -> Forall (swop_ok u) ops -> swid_ok u id -> swid_ok u a -> swid_ok u b ->
  let m := is_member (memb_run ops) in
  combines ops (SUnion id a b) id (m a || m b) /\
  combines ops (SInter id a b) id (m a && m b) /\
  combines ops (SDiff id a b) id (m a && negb (m b)) /\
  (memb_run ops a <> None -> combines ops (SOthers a id) id (negb (m a))).
Proof.
  intros u ops id a b Hu HF Hid Ha Hb m. unfold m. clear m.
  assert (HG : forall o x, swop_ok u o -> memb_step (memb_run ops) o = put (memb_run ops) id x ->
     (forall r, sres_ok (memb_run ops) o r -> r = SSwarm id) -> combines ops o id x).
  { intros o x Ho HS HR.
    assert (HF2 : Forall (swop_ok u) (ops ++ [o; SIn id])) by (apply Forall_app; split; auto).
    destruct (sw_run_ok u Hu _ sw_new _ (swinv_new u) HF2) as (s & rs & ms & oo & outs & E & I & HRs & _).
    assert (HX : forall l m rs tl, results_ok m (l ++ tl) rs -> exists r1 r2, rs = r1 ++ r2 /\ length r1 = length l /\ results_ok (fold_left memb_step l m) tl r2).
    { clear. induction l as [|o l IH]; intros m rs tl H.
      - exists [], rs. auto.
      - cbn [app results_ok] in H. destruct rs as [|r rs]; [tauto|]. destruct H as [_ H]. destruct (IH _ _ _ H) as (r1 & r2 & -> & HL & HR).
        exists (r :: r1), r2. splits; auto. cbn. auto. }
    destruct (HX _ _ _ _ HRs) as (r1 & r2 & -> & HL & H2). fold (memb_run ops) in H2. cbn [results_ok] in H2.
    destruct r2 as [|ra [|rb [|rc r2]]]; cbn in H2; try tauto. destruct H2 as (H1 & H2 & _).
    fold (memb_step (memb_run ops) o) in H2. rewrite HS in H2. unfold put in H2 at 1. rewrite Z.eqb_refl in H2. destruct H2 as (z & -> & Hz).
    exists s, r1, ra, z, ms. splits; auto. intros i Hi. unfold memb_run. rewrite fold_left_app. cbn [fold_left]. fold (memb_run ops). rewrite HS.
    cbn [memb_step]. unfold put. destruct (i =? id) eqn:Ei; auto. lia. }
  splits.
  - apply HG; auto; unfold swid_ok in *; cbn; tauto.
  - apply HG; auto; unfold swid_ok in *; cbn; tauto.
  - apply HG; auto; unfold swid_ok in *; cbn; tauto.
  - intro Hn. unfold is_member. destruct (memb_run ops a) as [x|] eqn:Ex; [|congruence]. apply HG; auto.
    + unfold swid_ok in *; cbn; tauto.
    + cbn. rewrite Ex. auto.
    + cbn. rewrite Ex. auto.
Qed.
Print Assumptions C33_swarm_algebra.
Example C33_a_run : exists s ms,
  sw_run sw_new [SCreate 1; SCreate 2; SJoin 1; SUnion 3 1 2; SInter 4 1 2; SDiff 5 1 2; SOthers 1 6; SIn 3; SIn 4; SIn 5; SIn 6]
  = Ok (s, [SSwarm 1; SSwarm 2; SNone; SSwarm 3; SSwarm 4; SSwarm 5; SSwarm 6; SInt 1; SInt 0; SInt 1; SInt 0], ms).
Proof. do 2 eexists. vm_compute. reflexivity. Qed.

(** C34 (partial).  For every sequence of messages (from any robots) and updates, what is known
    about each robot is its last announced membership; after more than 50 updates without a
    message from it nothing is known.  Missing: a robot that announces that it is in no swarm
    with an empty list (see below). *)
Theorem C34_members_follow_messages_partial :
  forall es r s, Forall mev_ok es ->
  mb_isrobotin (mb_run mb_new es) r s = fst (view_run r es) s.
Proof.
  intros es r s HF. rewrite (isrobotin_view _ _ r s (members_follow es HF _ _ minv_new)). reflexivity.
Qed.
Print Assumptions C34_members_follow_messages_partial.
(** In particular, after 51 updates without a message from [r]. *)
Theorem C34_silent_robot_forgotten :
  forall es es' r s, Forall mev_ok (es ++ es') ->
  Forall (fun e => match e with EMsg r' _ => r' <> r | EUpdate => True end) es' ->
  zlen (filter (fun e => match e with EUpdate => true | _ => false end) es') > 50 ->
  mb_isrobotin (mb_run mb_new (es ++ es')) r s = false.
Proof.
  intros es es' r s HF HS HL. rewrite C34_members_follow_messages_partial by auto. unfold view_run. rewrite fold_left_app.
  fold (view_run r es). set (v := view_run r es).
  assert (Hv : 0 <= snd v).
  { unfold v, view_run. assert (H0 : 0 <= snd ((fun _ : Z => false), 0)) by (cbn; lia). revert H0. generalize ((fun _ : Z => false), 0) as w.
    clear. induction es as [|e es IH]; intros w H0; auto. cbn. apply IH. destruct e as [r' m|]; cbn.
    - destruct (r' =? r); auto. destruct m as [| [|]| | | |]; cbn; auto; lia.
    - destruct (_ >? 50); cbn; lia. }
  clearbody v. clear HF. revert v Hv HL.
  assert (HF : forall es v, Forall (fun e => match e with EMsg r' _ => r' <> r | EUpdate => True end) es -> fst v s = false -> fst (fold_left (view_step r) es v) s = false).
  { clear. induction es as [|e es IH]; intros v HF Hf; auto. inversion HF; subst. cbn. apply IH; auto. destruct e as [r' m|]; cbn.
    - destruct (r' =? r) eqn:E; auto. lia.
    - destruct (_ >? 50); auto. }
  assert (HG : forall es, Forall (fun e => match e with EMsg r' _ => r' <> r | EUpdate => True end) es ->
      forall v, 0 <= snd v -> snd v + zlen (filter (fun e => match e with EUpdate => true | _ => false end) es) > 50 -> snd v <= 50 -> 
         fst (fold_left (view_step r) es v) s = false).
  { induction 1 as [|e es0 He HFs IH]; intros v Hv HL HB.
    - cbn in HL. unfold zlen in HL. cbn in HL. lia.
    - cbn [filter] in HL. destruct e as [r' m|].
      + cbn [fold_left]. replace (view_step r v (EMsg r' m)) with v by (cbn; destruct (r' =? r) eqn:E; auto; lia). apply IH; auto.
      + rewrite zlen_cons in HL. cbn [fold_left view_step]. destruct (snd v + 1 >? 50) eqn:Eg.
        * apply HF; auto.
        * apply IH; cbn [snd]; lia. }
  intros v Hv HL. destruct (Z_le_gt_dec (snd v) 50) as [Hb|Hb].
  - apply HG; auto. lia.
  - destruct es' as [|e es']; [unfold zlen in HL; cbn in HL; lia|]. clear HG. revert v Hv Hb HL. induction HS as [|x l Hx HFl IH]; intros v Hv Hb HL.
    + unfold zlen in HL; cbn in HL; lia.
    + destruct x as [r' m|].
      * cbn [fold_left]. replace (view_step r v (EMsg r' m)) with v by (cbn; destruct (r' =? r) eqn:E; auto; lia). apply IH; auto.
      * cbn [fold_left view_step]. destruct (snd v + 1 >? 50) eqn:Eg; [|lia]. apply HF; auto.
Qed.
Print Assumptions C34_silent_robot_forgotten.
Example C34_a_run :
  let es := [EMsg 4 (MJoin 1); EMsg 9 (MList [2; 1]); EUpdate; EMsg 9 (MLeave 2)] ++ repeat EUpdate 49 in
  Forall mev_ok es /\ mb_isrobotin (mb_run mb_new es) 4 1 = true /\ mb_isrobotin (mb_run mb_new (es ++ [EUpdate])) 4 1 = false /\
  mb_isrobotin (mb_run mb_new (es ++ [EUpdate])) 9 1 = true /\ mb_isrobotin (mb_run mb_new (es ++ [EUpdate; EUpdate])) 9 1 = false.
Proof.
  split; [|vm_compute; auto]. apply Forall_app. split.
  - repeat constructor; cbn; intuition lia.
  - apply Forall_forall. intros e He. apply repeat_spec in He. subst. exact I.
Qed.
(** An empty list does not erase what was known, although it says the robot is in no swarm. *)
Theorem C34_empty_list_ignored_refuted :
  mb_isrobotin (mb_run mb_new [EMsg 4 (MJoin 1); EMsg 4 (MList [])]) 4 1 = true.
Proof. reflexivity. Qed.
Print Assumptions C34_empty_list_ignored_refuted.

(** C57 (partial).  Announcements are faithful: after any history of swarm operations with no
    silent end of membership (others, union, intersection or difference writing a false
    result over a swarm the robot is in) and in which no empty list is sent, a robot that
    heard all the messages believes the sender to be in exactly the swarms it is in. *)
Theorem C57_announced_membership_partial :
  forall u ops s rs ms msgs r id, 0 <= u < 65536 -> Forall (swop_ok u) ops -> never_silent (fun _ => None) ops ->
  sw_run sw_new ops = Ok (s, rs, ms) -> drains (sw_out s) msgs -> ~ In (MList []) (ms ++ msgs) ->
  mb_isrobotin (fold_left (fun m msg => mb_receive m r msg) (ms ++ msgs) mb_new) r id = is_member (memb_run ops) id.
Proof.
  intros u ops s rs ms msgs r id Hu HF HS E HD HN.
  destruct (sw_run_ok u Hu ops sw_new _ (swinv_new u) HF) as (s' & rs' & ms' & oo & outs & E' & I & HR & HK & HQ & HC & HA).
  rewrite E' in E. inversion E; subst s' rs' ms'. clear E. cbn [sw_out sw_new] in HQ.
  pose proof (drains_unique (sw_out s) msgs (pending (sw_out s)) HD (drains_pending _ _ u Hu _ (wi_out u s _ I))). subst msgs.
  subst ms. rewrite receiver_run.
  - rewrite (run_announced true (fun _ => 0) u Hu oo) by auto. apply (HA HS (fun _ => false)). intro i. reflexivity.
  - apply (run_lists true (fun _ => 0) u Hu oo); auto.
  - apply Forall_forall. intros m Hm ->. auto.
Qed.
Print Assumptions C57_announced_membership_partial.
Example C57_a_run :
  let ops := [SCreate 1; SJoin 1; SSend; SCreate 2; SPeriod; SUnion 3 1 2; SSend; SLeave 1; SSelect 2 1] in
  never_silent (fun _ => None) ops /\
  exists s rs ms, sw_run sw_new ops = Ok (s, rs, ms) /\ ms = [MJoin 1; MList [1; 3]] /\ drains (sw_out s) [MJoin 2; MLeave 1].
Proof.
  split; [vm_compute; repeat split; reflexivity|]. do 3 eexists. split; [vm_compute; reflexivity|]. split; [reflexivity|].
  do 2 eexists. split; [vm_compute; reflexivity|]. split; [reflexivity|]. split; [repeat constructor|reflexivity].
Qed.
(** A robot in swarm 1 that computes union(1, 2, 3) of swarms it is not in leaves swarm 1 and
    tells nobody. *)
Theorem C57_silent_leave_refuted :
  let ops := [SCreate 1; SJoin 1; SCreate 2; SCreate 3; SUnion 1 2 3; SSend] in
  exists s rs, sw_run sw_new ops = Ok (s, rs, [MJoin 1]) /\ drains (sw_out s) [] /\ is_member (memb_run ops) 1 = false /\
    mb_isrobotin (mb_receive mb_new 8 (MJoin 1)) 8 1 = true.
Proof.
  do 2 eexists. split; [vm_compute; reflexivity|]. split; [|split; vm_compute; reflexivity].
  do 2 eexists. repeat split; constructor.
Qed.
Print Assumptions C57_silent_leave_refuted.

(** C35.  For every table of neighbors (with integer ids as keys), every membership table and
    every stack of swarms: each neighbor, with its data, is in exactly one of the results of
    kin() and nonkin(), and no other robot is; inside a swarm, kin() has exactly those known
    to be in the current swarm; outside any swarm it has all of them. *)
Definition in_result (t : option table) (r : Z) : res (option obj) :=
  match t with None => Ok None | Some t => tab_get t (OInt r) end.
Theorem C35_kin_nonkin_partition :
  forall mb stack d, Forall (fun i => 0 <= i < 65536) stack ->
  twf table_hash (key_class false (fun _ => 0)) d -> int_keys d ->
  exists k n, nb_kin mb stack [] (Some d) = Ok (Some k) /\ nb_nonkin mb stack [] (Some d) = Ok (Some n) /\
    forall r, int32_range r -> exists v, tab_get d (OInt r) = Ok v /\
      let kin := match rev stack with [] => true | cur :: _ => mb_isrobotin mb (wrap16 r) cur end in
      in_result k r = Ok (if kin then v else None) /\ in_result n r = Ok (if kin then None else v).
Proof.
  intros mb stack d HS HT HI. unfold nb_kin, nb_nonkin. destruct stack as [|x stack] using rev_ind.
  - cbn [cur_swarm bind]. change (-1 >=? 0) with false. change (-1 <? 0) with true. cbn [orb].
    destruct (filter_table (fun _ => true) d HT HI) as (t' & E & HG). rewrite E. cbn [bind]. do 2 eexists. split; [reflexivity|]. split; [reflexivity|].
    intros r Hr. destruct (HG r Hr) as (v & E1 & E2). exists v. split; auto.
  - clear IHstack. apply Forall_app in HS as [_ HS]. inversion HS as [|? ? Hx _]; subst.
    assert (HC : cur_swarm (stack ++ [x]) = Ok x).
    { unfold cur_swarm. destruct (stack ++ [x]) as [|y l] eqn:E; [destruct stack; discriminate|]. rewrite <- E. clear y l E.
      unfold stack_get. rewrite zlen_app. change (zlen [x]) with 1. pose proof (zlen_nonneg stack). destruct (_ <=? _) eqn:El; [|lia].
      replace (Z.to_nat (zlen stack + 1 - 1)) with (length stack) by (unfold zlen; lia).
      rewrite nth_error_app2, Nat.sub_diag by lia. reflexivity. }
    rewrite HC. cbn [bind]. destruct (x >=? 0) eqn:E0; [|lia]. destruct (x <? 0) eqn:E1; [lia|]. cbn [orb andb].
    rewrite wrap16_ok by auto. rewrite rev_app_distr. cbn [rev app].
    destruct (filter_table (fun r => mb_isrobotin mb (wrap16 r) x) d HT HI) as (t1 & Ek & HG1).
    destruct (filter_table (fun r => negb (mb_isrobotin mb (wrap16 r) x)) d HT HI) as (t2 & En & HG2).
    rewrite Ek, En. cbn [bind]. do 2 eexists. split; [reflexivity|]. split; [reflexivity|]. intros r Hr.
    destruct (HG1 r Hr) as (v & Ev & H1). destruct (HG2 r Hr) as (v' & Ev' & H2). rewrite Ev in Ev'. assert (v' = v) by congruence. subst v'.
    exists v. split; auto. cbn [in_result]. split; auto. rewrite H2. destruct (mb_isrobotin mb (wrap16 r) x); auto.
Qed.
Print Assumptions C35_kin_nonkin_partition.
Definition three_neighbors : table := pset (khash table_hash (key_class false (fun _ => 0))) (kcmp (key_class false (fun _ => 0)))
  (pset (khash table_hash (key_class false (fun _ => 0))) (kcmp (key_class false (fun _ => 0)))
  (pset (khash table_hash (key_class false (fun _ => 0))) (kcmp (key_class false (fun _ => 0))) (pnew 10) (OInt 3) (OInt 30)) (OInt 13) (OInt 31)) (OInt 8) (OInt 80).
Lemma three_neighbors_ok : twf table_hash (key_class false (fun _ => 0)) three_neighbors /\ int_keys three_neighbors.
Proof.
  split.
  - unfold three_neighbors. repeat (apply (twf_set _ _ _ (good_class false (fun _ => 0))); [|reflexivity]). apply (twf_new _ _ _ (good_class false (fun _ => 0))).
  - unfold int_keys. replace (pentries three_neighbors) with [(OInt 3, OInt 30); (OInt 13, OInt 31); (OInt 8, OInt 80)] by (vm_compute; reflexivity).
    repeat constructor; eexists; (split; [reflexivity|unfold int32_range; lia]).
Qed.
Example C35_a_run :
  let mb := mb_run mb_new [EMsg 13 (MJoin 2); EMsg 8 (MJoin 1)] in
  exists k n, nb_kin mb [1; 2] [] (Some three_neighbors) = Ok (Some (Some k)) /\ nb_nonkin mb [1; 2] [] (Some three_neighbors) = Ok (Some (Some n)) /\
    pentries k = [(OInt 13, OInt 31)] /\ pentries n = [(OInt 3, OInt 30); (OInt 8, OInt 80)].
Proof. do 2 eexists. split; [vm_compute; reflexivity|]. split; [vm_compute; reflexivity|]. split; vm_compute; reflexivity. Qed.

(** C58.  swarm.id() is the innermost swarm being executed, or nil. *)
Theorem C58_swarm_id_current :
  forall stack, zlen stack < 2 ^ 32 ->
  swarm_id stack [] = Ok (Some (match rev stack with [] => ONil | cur :: _ => OInt cur end)).
Proof.
  intros stack HL. unfold swarm_id. destruct stack as [|x stack] using rev_ind; [reflexivity|]. clear IHstack.
  destruct (stack ++ [x]) as [|y l] eqn:E; [destruct stack; discriminate|]. rewrite <- E in *. clear y l E. change (zlen [] >? 1) with false.
  cbv beta iota. rewrite zlen_app. change (zlen [x]) with 1. pose proof (zlen_nonneg stack). destruct (_ >? _) eqn:El; [lia|].
  unfold stack_get. rewrite zlen_app. change (zlen [x]) with 1. replace (Z.to_nat (zlen stack + 1 - 1)) with (length stack) by (unfold zlen; lia).
  rewrite nth_error_app2, Nat.sub_diag by lia. cbn [nth_error bind]. rewrite rev_app_distr. reflexivity.
Qed.
Print Assumptions C58_swarm_id_current.
(** The argument that selects an enclosing swarm is ignored: swarm.id(2) is the innermost one. *)
Theorem C58_parent_swarm_id_refuted : swarm_id [1; 2] [OInt 2] = Ok (Some (OInt 2)).
Proof. reflexivity. Qed.
Print Assumptions C58_parent_swarm_id_refuted.
(** With a second argument, position 0 reads past the end of the stack. *)
Theorem C58_position_zero_refuted : swarm_id [1; 2] [OInt 0; ONil] = UB.
Proof. reflexivity. Qed.
Print Assumptions C58_position_zero_refuted.
