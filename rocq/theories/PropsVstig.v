(** Properties C27-C31, C59 and C60: virtual stigmergy. *)
From Verif Require Import Base ListLemmas Dict PDict DictProofs PDictKeys Strman Obj ObjSpec ObjProofs OutMsg OutMsgSpec OutMsgProofs OutMsgRun
  Vstig VstigSpec VstigProofs VstigConv Net NetProofs.

Definition sid1 (_ : str) : Z := 1.
Definition el (d : obj) (ts r : Z) : velem := {| ve_data := d; ve_ts := ts; ve_robot := r |}.
Notation ki := (OInt 5).

(** C27.  In every reachable state, for every stigmergy that was created: put(k, v) followed by
    get(k) returns v; get of any other key (or of any key of another stigmergy) returns what it
    returned before; the new entry of k has a strictly larger timestamp than the previous one
    (below the limit of 16 bits) and the id of the robot; put(k, nil) removes the entry. *)
Theorem C27_put_then_get :
  forall fl sidof s id k v, reachable fl sidof s -> vkey_class fl sidof k = true -> exists_vs s id ->
  exists s', vs_put s id k v = Ok s' /\
    (forall id' k', vkey_class fl sidof k' = true -> exists s1 s2 r,
        vs_get s id' k' = Ok (s1, r) /\
        vs_get s' id' k' = Ok (s2, if (id =? id') && same_key k k' then v else r)) /\
    (v = ONil -> entry s' id k = None) /\
    (v <> ONil -> exists e', entry s' id k = Some e' /\ ve_data e' = v /\ ve_robot e' = st_robot s /\ 0 <= ve_ts e' < 65536 /\
        forall e, entry s id k = Some e -> 0 <= ve_ts e < 65535 -> ve_ts e < ve_ts e').
Proof.
  intros fl sidof s id k v HR Hk HX. apply (reachable_winv fl sidof) in HR as W. destruct (put_ok fl sidof s id k v W Hk) as (s' & E & HE).
  exists s'. split; auto. unfold exists_vs in HX. destruct (vfind s id) as [vs|] eqn:HV; [|congruence].
  assert (HN : v = ONil -> is_nil v = true) by (intros ->; auto). assert (HN' : v <> ONil -> is_nil v = false) by (intro H; apply is_nil_f; auto).
  assert (Hsk : same_key k k = true) by (apply (gc_refl _ _ _ (good_vclass fl sidof)); auto).
  assert (HS : winv fl sidof s' /\ (forall id' k', vkey_class fl sidof k' = true -> match entry s' id' k' with Some e => ve_data e | None => ONil end =
                if (id =? id') && same_key k k' then v else match entry s id' k' with Some e => ve_data e | None => ONil end)).
  { assert (HG : forall x m, effect fl sidof s (Some (id, k, x)) m s' -> match x with Some e => ve_data e | None => ONil end = v ->
       winv fl sidof s' /\ (forall id' k', vkey_class fl sidof k' = true -> match entry s' id' k' with Some e => ve_data e | None => ONil end =
                if (id =? id') && same_key k k' then v else match entry s id' k' with Some e => ve_data e | None => ONil end)).
    { intros x m EF Hx. split; [apply EF|]. intros id' k' Hk'. rewrite (ef_e _ _ _ _ _ _ EF id' k' Hk'). destruct (_ && _); auto. }
    destruct (entry s id k) as [e|] eqn:Ee.
    - eapply HG; eauto. destruct (is_nil v) eqn:En; auto. apply is_nil_iff in En. auto.
    - destruct (is_nil v) eqn:En; [|eapply HG; eauto]. subst s'. split; auto. apply is_nil_iff in En. subst v. intros id' k' Hk'.
      destruct (_ && _) eqn:EK; auto. apply andb_true_iff in EK as [E1 E2]. assert (id = id') by lia. subst id'.
      rewrite <- (entry_cong fl sidof s id k k') by auto. rewrite Ee. auto. }
  destruct HS as [W' HS]. splits.
  - intros id' k' Hk'. destruct (get_ok fl sidof s id' k' W Hk') as (s1 & -> & _). destruct (get_ok fl sidof s' id' k' W' Hk') as (s2 & -> & _).
    rewrite HS by auto. eauto.
  - intro Hv. apply HN in Hv. rewrite Hv in HE. destruct (entry s id k) as [e|] eqn:Ee; [|congruence].
    rewrite (ef_e _ _ _ _ _ _ HE id k Hk), Z.eqb_refl, Hsk. auto.
  - intro Hv. apply HN' in Hv. rewrite Hv in HE. destruct (entry s id k) as [e|] eqn:Ee.
    + eexists. split; [rewrite (ef_e _ _ _ _ _ _ HE id k Hk), Z.eqb_refl, Hsk; reflexivity|]. cbn [ve_data ve_ts ve_robot].
      split; [auto|]. split; [auto|]. split; [apply Z.mod_pos_bound; lia|].
      intros e0 He0 Hb. inversion He0; subst e0. unfold wrap16. rewrite Z.mod_small by (change (2 ^ 16) with 65536; lia). lia.
    + eexists. split; [rewrite (ef_e _ _ _ _ _ _ HE id k Hk), Z.eqb_refl, Hsk; reflexivity|]. cbn [ve_data ve_ts ve_robot].
      split; [auto|]. split; [auto|]. split; [lia|]. intros e0 He0. discriminate.
Qed.
Print Assumptions C27_put_then_get.
(** A reachable state with three entries, one of them received. *)
Definition a_vhist : list vop :=
  [VCreate 7; VPut 7 ki (OInt 1); VPut 7 ki (OInt 2); VPut 7 (OStr 1 [97]) (OInt 9); VRecv (MPut 7 (OInt 6) (el (OInt 3) 4 2)); VSend].
Lemma a_vhist_reach : exists s, reachable true sid1 s /\ entry s 7 ki = Some (el (OInt 2) 2 0) /\ entry s 7 (OInt 6) = Some (el (OInt 3) 4 2) /\
  exists_vs s 7 /\ default_mgr s 7.
Proof.
  eexists. split.
  - exists 0, a_vhist. eexists. split; [repeat constructor|vm_compute; reflexivity].
  - split; [vm_compute; reflexivity|]. split; [vm_compute; reflexivity|]. split; [unfold exists_vs; vm_compute; discriminate|].
    intros vs H. vm_compute in H. inversion H; subst. reflexivity.
Qed.

(** C27, size.  The size of a stigmergy is the number of its keys: as many as in any list that has
    every key with an entry, once. *)
Theorem C27_size :
  forall fl sidof s id, reachable fl sidof s ->
  (~ exists_vs s id -> vs_size s id = 0) /\
  exists ks, vs_size s id = zlen ks /\ ForallOrdPairs (fun a b => same_key a b = false) ks /\
    forall k, vkey_class fl sidof k = true -> (entry s id k <> None <-> exists k', In k' ks /\ same_key k k' = true).
Proof.
  intros fl sidof s id HR. apply (reachable_winv fl sidof) in HR as W. unfold vs_size, exists_vs. destruct (vfind s id) as [vs|] eqn:HV.
  2: { split; auto. exists []. split; auto. split; [constructor|]. intros k Hk. unfold entry. rewrite HV. split; [congruence|intros (k' & [] & _)]. }
  split; [intro H; exfalso; apply H; discriminate|].
  pose proof (good_vclass fl sidof) as G. pose proof (good_k _ _ _ G) as GK. pose proof (wi_t _ _ _ W id vs HV) as HT. destruct HT as (H10 & HW & HK).
  exists (map fst (pentries (vs_data vs))). split; [unfold psize; rewrite zlen_map; reflexivity|]. split.
  - destruct HW as (_ & ND & _). unfold tab_keys in HK. revert HK ND. induction (pentries (vs_data vs)) as [|[k e] l IH]; intros HK ND; constructor.
    + inversion HK; subst. destruct ND as [ND _]. apply Forall_forall. intros k' Hk'. apply in_map_iff in Hk' as ([k2 e2] & <- & Hin). specialize (ND _ Hin). cbn [fst] in *.
      rewrite (keqb_in _ _ _ G) in ND; auto. rewrite Forall_forall in H2. apply (H2 _ Hin).
    + inversion HK; subst. destruct ND as [_ ND]. auto.
  - intros k Hk. unfold entry. rewrite HV. unfold vfetch. rewrite (rget_pget _ _ _ G) by (auto; split; auto).
    unfold tab_keys in HK. rewrite Forall_forall in HK. split.
    + intro H. destruct (pget _ _ (vs_data vs) k) as [e|] eqn:E; [|congruence]. apply (get_in _ _ _ GK) in E as (k' & Hin & HE); auto.
      exists k'. split; [apply in_map_iff; exists (k', e); auto|]. rewrite (keqb_in _ _ _ G) in HE; auto. apply (HK _ Hin).
    + intros (k' & Hin & HE) HN. apply in_map_iff in Hin as ([k2 e] & Hk2 & Hin). cbn in Hk2. subst k2.
      apply (get_none _ _ _ GK) with (e := (k', e)) in HN; auto. cbn [fst] in HN. rewrite (keqb_in _ _ _ G) in HN; [congruence|auto|apply (HK _ Hin)].
Qed.
Print Assumptions C27_size.
Example C27_size_nontrivial : exists s outs, vrun (vst_new 0) a_vhist = Ok (s, outs) /\ reachable true sid1 s /\ vs_size s 7 = 3 /\ vs_size s 8 = 0.
Proof. do 2 eexists. split; [vm_compute; reflexivity|]. split; [|split; vm_compute; reflexivity]. exists 0, a_vhist. eexists. split; [repeat constructor|vm_compute; reflexivity]. Qed.

(** C28.  Processing received messages never lowers the timestamp of an entry and never
    removes one.  A single message changes at most the entries of its own key: it replaces an
    entry by the one it carries if that is newer, or by the result of conflict resolution if
    both have the same timestamp and different authors. *)
Theorem C28_received_updates_monotone :
  (forall fl sidof s ms s' outs, reachable fl sidof s -> Forall (vmsg_ok fl sidof) ms -> receive_all s ms = Ok (s', outs) ->
   forall id k e, vkey_class fl sidof k = true -> entry s id k = Some e -> exists e', entry s' id k = Some e' /\ ve_ts e <= ve_ts e') /\
  (forall fl sidof s m, reachable fl sidof s -> vmsg_ok fl sidof m -> exists s' ls, vrecv s m = Ok (s', ls) /\
   forall id k e', vkey_class fl sidof k = true -> entry s' id k = Some e' -> entry s id k <> Some e' ->
     exists v, carried id k m = Some v /\
       match entry s id k with
       | None => e' = v
       | Some e =>
           (ve_ts e < ve_ts v /\ e' = v) \/
           (ve_ts e = ve_ts v /\ ve_robot e <> ve_robot v /\ ve_ts e' = ve_ts e /\
            exists vs, vfind s id = Some vs /\
              match vs_oc vs with
              | None => e' = v /\ beats v e
              | Some f => exists k' r, same_key k' k = true /\ f k' e v = Some (ve_data e', r) /\ ve_robot e' = wrap16 r
              end)
       end).
Proof.
  split.
  - intros fl sidof s ms s' outs HR HF HE id k e Hk He. eapply receive_mono; eauto. apply reachable_winv; auto.
  - intros fl sidof s m HR Hm. apply (reachable_winv fl sidof) in HR as W.
    destruct (vrecv_entry fl sidof s m (0) (OInt 0) W Hm) as (s' & ls & E & W' & _); [destruct fl; reflexivity|]. exists s', ls. split; auto.
    intros id k e' Hk He' HN. destruct (vrecv_entry fl sidof s m id k W Hm Hk) as (s2 & ls2 & E2 & _ & _ & _ & HEn).
    rewrite E in E2. inversion E2; subst s2 ls2. rewrite HEn in He'. clear HEn. destruct (vfind s id) as [vs|] eqn:HV; [|congruence].
    destruct (carried id k m) as [v|] eqn:EC; [|congruence]. exists v. split; auto. destruct (entry s id k) as [e|] eqn:Ee.
    + destruct (judge _ _ _ _ _) as [|x|] eqn:EJ; try congruence. inversion He'; subst x.
      apply judge_ts in EJ as [[H1 ->]|(H1 & H2 & H3 & H4)]; [left; auto|right]. splits; auto. exists vs. split; auto.
      destruct (vs_oc vs) as [f|] eqn:Eo.
      * unfold resolve in H3. rewrite Eo in H3. destruct (f _ e v) as [[d r]|] eqn:Ef; [|discriminate]. inversion H3; subst e'. cbn [ve_data ve_robot].
        eexists. exists r. split; [|split; [exact Ef|auto]]. destruct m; cbn in EC; try discriminate; destruct (same_key key k); auto; rewrite andb_false_r in EC; discriminate.
      * destruct (resolve_default vs (match m with MPut _ k' _ | MQuery _ k' _ => k' | _ => k end) e v Eo H2 H1) as [[HB HS]|[HB HS]]; rewrite HS in H3; inversion H3; subst; [auto|congruence].
    + destruct (judge _ _ _ _ _) as [|x|] eqn:EJ; try congruence. inversion He'; subst x. unfold judge in EJ. destruct (_ || _); congruence.
Qed.
Print Assumptions C28_received_updates_monotone.
Example C28_a_run : exists s s' outs, reachable true sid1 s /\ entry s 7 ki = Some (el (OInt 2) 2 0) /\
  receive_all s [MPut 7 ki (el (OInt 8) 1 5); MQuery 7 ki (el (OInt 9) 2 3); MPut 7 ki (el ONil 4 1); MPut 7 ki (el (OInt 8) 3 5)] = Ok (s', outs) /\
  entry s' 7 ki = Some (el ONil 4 1).
Proof.
  do 3 eexists. split.
  - exists 0, a_vhist. eexists. split; [repeat constructor|vm_compute; reflexivity].
  - split; [vm_compute; reflexivity|]. split; [vm_compute; reflexivity|]; vm_compute; reflexivity.
Qed.

(** C29.  Two robots that agree on the entry of a key and receive the same messages, each in
    its own order and with any number of duplicates, end with the same entry, whatever else
    they did before (default conflict resolution).  [Hident]: entries with the same timestamp
    and author are the same entry (C29_reused_timestamp_refuted shows that a script can
    violate this by deleting a key and writing it again).  Queries without a value are not
    updates (C29_nil_query_refuted). *)
Theorem C29_replicas_converge_partial :
  forall fl sidof s1 s2 id k ms1 ms2 s1' s2' o1 o2,
  reachable fl sidof s1 -> reachable fl sidof s2 -> exists_vs s1 id -> exists_vs s2 id -> default_mgr s1 id -> default_mgr s2 id ->
  vkey_class fl sidof k = true -> entry s1 id k = entry s2 id k ->
  Forall (vmsg_ok fl sidof) ms1 -> Forall update_msg ms1 ->
  (forall m, In m ms1 <-> In m ms2) ->
  (forall a b, (entry s1 id k = Some a \/ exists m, In m ms1 /\ carried id k m = Some a) ->
               (entry s1 id k = Some b \/ exists m, In m ms1 /\ carried id k m = Some b) ->
               ve_ts a = ve_ts b -> ve_robot a = ve_robot b -> ve_data a = ve_data b) ->
  receive_all s1 ms1 = Ok (s1', o1) -> receive_all s2 ms2 = Ok (s2', o2) ->
  entry s1' id k = entry s2' id k.
Proof.
  intros fl sidof s1 s2 id k ms1 ms2 s1' s2' o1 o2 R1 R2 X1 X2 D1 D2 Hk HE HF HU HM HI E1 E2.
  assert (HF2 : Forall (vmsg_ok fl sidof) ms2) by (rewrite Forall_forall in *; intros m Hm; apply HF; apply HM; auto).
  assert (HU2 : Forall update_msg ms2) by (rewrite Forall_forall in *; intros m Hm; apply HU; apply HM; auto).
  assert (HK : forall e, known id k (entry s1 id k) ms1 e <-> known id k (entry s2 id k) ms2 e).
  { intro e. unfold known. rewrite HE. split; (intros [H|(m & Hm & Hc)]; [auto|right; exists m; split; auto; apply HM; auto]). }
  pose proof (receive_best fl sidof ms1 s1 id k s1' o1 (reachable_winv _ _ _ R1) Hk HF HU X1 D1 HI E1) as B1.
  assert (HI2 : forall a b, known id k (entry s2 id k) ms2 a -> known id k (entry s2 id k) ms2 b -> ident a b) by (intros a b Ha Hb; exact (HI a b (proj2 (HK a) Ha) (proj2 (HK b) Hb))).
  pose proof (receive_best fl sidof ms2 s2 id k s2' o2 (reachable_winv _ _ _ R2) Hk HF2 HU2 X2 D2 HI2 E2) as B2.
  destruct (entry s1' id k) as [e1|], (entry s2' id k) as [e2|]; auto.
  - destruct B1 as [K1 B1], B2 as [K2 B2]. f_equal. apply best_unique; [exact (HI e1 e2 K1 (proj2 (HK e2) K2))| |].
    + apply B2. apply HK. auto.
    + apply B1. apply HK. auto.
  - destruct B1 as [K1 _]. exfalso. eapply B2. apply HK. eauto.
  - destruct B2 as [K2 _]. exfalso. eapply B1. apply HK. eauto.
Qed.
Print Assumptions C29_replicas_converge_partial.
Definition msgs29 := [MPut 7 ki (el (OInt 8) 3 5); MQuery 7 ki (el (OInt 9) 3 6); MPut 7 ki (el ONil 3 7)].
Example C29_a_run : exists s1 s2 s1' s2' o1 o2,
  reachable true sid1 s1 /\ reachable true sid1 s2 /\ entry s1 7 ki = entry s2 7 ki /\ st_robot s1 <> st_robot s2 /\
  receive_all s1 msgs29 = Ok (s1', o1) /\ receive_all s2 (rev msgs29 ++ msgs29) = Ok (s2', o2) /\
  entry s1' 7 ki = Some (el (OInt 9) 3 6) /\ entry s2' 7 ki = Some (el (OInt 9) 3 6).
Proof.
  do 6 eexists. split; [|split].
  - exists 0, [VCreate 7; VPut 7 ki (OInt 1)]. eexists. split; [repeat constructor|vm_compute; reflexivity].
  - exists 4, [VCreate 7; VRecv (MPut 7 ki (el (OInt 1) 1 0))]. eexists. split; [repeat constructor|vm_compute; reflexivity].
  - split; [vm_compute; reflexivity|]. split; [vm_compute; discriminate|]. split; [vm_compute; reflexivity|]. split; [vm_compute; reflexivity|]. split; [vm_compute; reflexivity|]; vm_compute; reflexivity.
Qed.

(** Without [Hident] the statement is false: a robot that writes a key, deletes it, and writes
    it again sends two different entries with the same timestamp and author; receivers of
    these two messages in different orders disagree. *)
Theorem C29_reused_timestamp_refuted :
  exists sender outs s1' s2' o1 o2,
    vrun (vst_new 1) [VCreate 7; VPut 7 ki (OInt 10); VSend; VPut 7 ki ONil; VSend; VPut 7 ki (OInt 20); VSend] = Ok (sender, outs) /\
    In (RSent [MPut 7 ki (el (OInt 10) 1 1)]) outs /\ In (RSent [MPut 7 ki (el (OInt 20) 1 1)]) outs /\
    receive_all (vs_create (vst_new 2) 7) [MPut 7 ki (el (OInt 10) 1 1); MPut 7 ki (el (OInt 20) 1 1)] = Ok (s1', o1) /\
    receive_all (vs_create (vst_new 3) 7) [MPut 7 ki (el (OInt 20) 1 1); MPut 7 ki (el (OInt 10) 1 1)] = Ok (s2', o2) /\
    entry s1' 7 ki = Some (el (OInt 10) 1 1) /\ entry s2' 7 ki = Some (el (OInt 20) 1 1).
Proof.
  do 6 eexists. split; [vm_compute; reflexivity|]. split; [vm_compute; tauto|]. split; [vm_compute; tauto|].
  split; [vm_compute; reflexivity|]. split; [vm_compute; reflexivity|]. split; [vm_compute; reflexivity|]; vm_compute; reflexivity.
Qed.
Print Assumptions C29_reused_timestamp_refuted.
(** Queries that carry a deletion: a robot without the key ignores it (buzzvm.c 371-375), a
    robot with an older entry stores it, so the order matters. *)
Theorem C29_nil_query_refuted :
  exists s1' s2' o1 o2,
    receive_all (vs_create (vst_new 2) 7) [MQuery 7 ki (el ONil 5 1); MPut 7 ki (el (OInt 10) 3 4)] = Ok (s1', o1) /\
    receive_all (vs_create (vst_new 3) 7) [MPut 7 ki (el (OInt 10) 3 4); MQuery 7 ki (el ONil 5 1)] = Ok (s2', o2) /\
    entry s1' 7 ki = Some (el (OInt 10) 3 4) /\ entry s2' 7 ki = Some (el ONil 5 1).
Proof. do 4 eexists. split; [vm_compute; reflexivity|]. split; [vm_compute; reflexivity|]. split; [vm_compute; reflexivity|]; vm_compute; reflexivity. Qed.
Print Assumptions C29_nil_query_refuted.

(** C30.  Robot 1 holds [a] and receives [b]; robot 2 holds [b] and receives [a] (by PUT or
    QUERY messages); the two entries are in conflict.  Both robots end with the same one. *)
Theorem C30_conflict_symmetric :
  forall fl sidof s1 s2 id k a b m1 m2,
  reachable fl sidof s1 -> reachable fl sidof s2 -> default_mgr s1 id -> default_mgr s2 id ->
  vkey_class fl sidof k = true -> entry s1 id k = Some a -> entry s2 id k = Some b ->
  ve_ts a = ve_ts b -> ve_robot a <> ve_robot b ->
  vmsg_ok fl sidof m1 -> vmsg_ok fl sidof m2 -> carried id k m1 = Some b -> carried id k m2 = Some a ->
  exists s1' l1 s2' l2, vrecv s1 m1 = Ok (s1', l1) /\ vrecv s2 m2 = Ok (s2', l2) /\
    exists c, entry s1' id k = Some c /\ entry s2' id k = Some c /\
      ((c = a /\ beats a b) \/ (c = b /\ beats b a)).
Proof.
  intros fl sidof s1 s2 id k a b m1 m2 R1 R2 D1 D2 Hk E1 E2 Ht Hr O1 O2 C1 C2.
  destruct (vrecv_entry fl sidof s1 m1 id k (reachable_winv _ _ _ R1) O1 Hk) as (s1' & l1 & V1 & _ & _ & _ & H1).
  destruct (vrecv_entry fl sidof s2 m2 id k (reachable_winv _ _ _ R2) O2 Hk) as (s2' & l2 & V2 & _ & _ & _ & H2).
  exists s1', l1, s2', l2. split; auto. split; auto. rewrite C1, E1 in H1. rewrite C2, E2 in H2.
  destruct (vfind s1 id) as [vs1|] eqn:F1; [|unfold entry in E1; rewrite F1 in E1; discriminate].
  destruct (vfind s2 id) as [vs2|] eqn:F2; [|unfold entry in E2; rewrite F2 in E2; discriminate].
  unfold judge in H1, H2. replace (ve_ts a <? ve_ts b) with false in H1 by lia. replace (ve_ts b <? ve_ts a) with false in H2 by lia.
  replace ((ve_ts a =? ve_ts b) && negb (ve_robot a =? ve_robot b)) with true in H1 by lia.
  replace ((ve_ts b =? ve_ts a) && negb (ve_robot b =? ve_robot a)) with true in H2 by lia.
  assert (HB : ~ (beats a b /\ beats b a)) by (intros [A B]; apply (beats_irrefl a); eapply beats_trans; eauto).
  destruct (resolve_default vs1 (match m1 with MPut _ k' _ | MQuery _ k' _ => k' | _ => k end) a b (D1 _ F1) Hr Ht) as [[B1 S1]|[B1 S1]];
  destruct (resolve_default vs2 (match m2 with MPut _ k' _ | MQuery _ k' _ => k' | _ => k end) b a (D2 _ F2)) as [[B2 S2]|[B2 S2]]; auto; try tauto;
  rewrite S1 in H1; rewrite S2 in H2; eexists; split; [exact H1| |exact H1|]; split; auto.
Qed.
Print Assumptions C30_conflict_symmetric.
Example C30_a_run : exists s1 s2, reachable true sid1 s1 /\ reachable true sid1 s2 /\
  entry s1 7 ki = Some (el (OInt 1) 1 3) /\ entry s2 7 ki = Some (el (OInt 2) 1 9) /\ default_mgr s1 7 /\ default_mgr s2 7.
Proof.
  do 2 eexists. split; [|split].
  - exists 3, [VCreate 7; VPut 7 ki (OInt 1)]. eexists. split; [repeat constructor|vm_compute; reflexivity].
  - exists 9, [VCreate 7; VPut 7 ki (OInt 2)]. eexists. split; [repeat constructor|vm_compute; reflexivity].
  - split; [vm_compute; reflexivity|]. split; [vm_compute; reflexivity|]. split; intros vs H; vm_compute in H; inversion H; reflexivity.
Qed.

(** C31 is false: put(k, nil) removes the entry and with it the timestamp; a message sent
    before the deletion brings the value back. *)
Theorem C31_deletion_sticks_refuted :
  exists s1 o1 s2 o2 s3,
    vrun (vst_new 1) [VCreate 7; VPut 7 ki (OInt 10); VSend; VPut 7 ki ONil; VSend] = Ok (s1, o1) /\ entry s1 7 ki = None /\
    In (RSent [MPut 7 ki (el (OInt 10) 1 1)]) o1 /\
    (* another robot repeats the first message, as every receiver does *)
    vrun s1 [VRecv (MPut 7 ki (el (OInt 10) 1 1))] = Ok (s2, o2) /\ vs_get s2 7 ki = Ok (s3, OInt 10).
Proof. do 5 eexists. split; [vm_compute; reflexivity|]. split; [vm_compute; reflexivity|]. split; [vm_compute; tauto|]. split; [vm_compute; reflexivity|]; vm_compute; reflexivity. Qed.
Print Assumptions C31_deletion_sticks_refuted.
(** What holds: at a robot that received the deletion (and so keeps an entry with its
    timestamp), older messages do not bring the value back. *)
Theorem C31_received_deletion_sticks_partial :
  forall fl sidof s id k ts r ms s' outs, reachable fl sidof s -> vkey_class fl sidof k = true ->
  entry s id k = Some {| ve_data := ONil; ve_ts := ts; ve_robot := r |} ->
  Forall (vmsg_ok fl sidof) ms -> (forall m v, In m ms -> carried id k m = Some v -> ve_ts v < ts) ->
  receive_all s ms = Ok (s', outs) -> exists s2, vs_get s' id k = Ok (s2, ONil).
Proof.
  intros fl sidof s id k ts r ms s' outs HR Hk He HF HL HE.
  apply (reachable_winv fl sidof) in HR as W. clear HR.
  assert (HG : winv fl sidof s' /\ entry s' id k = entry s id k).
  { revert s W He HE HF HL. revert outs. induction ms as [|m ms IH]; intros outs s W He HE HF HL; unfold receive_all in HE; cbn [map vrun vstep] in HE.
    - inversion HE; subst. auto.
    - inversion HF; subst. destruct (vrecv_entry fl sidof s m id k W) as (s1 & ls & E1 & W1 & _ & _ & HEn); auto. rewrite E1 in HE. cbn [bind] in HE.
      apply bind_ok in HE as ([s2 rs] & E2 & HE). inversion HE; subst.
      assert (HS : entry s1 id k = entry s id k).
      { rewrite HEn. clear HEn. destruct (vfind s id) as [vs|]; auto. destruct (carried id k m) as [v|] eqn:EC; auto.
        assert (Hlt : ve_ts v < ts) by (eapply HL; eauto; left; auto). rewrite He. unfold judge. cbn [ve_ts].
        replace (ts <? ve_ts v) with false by lia. replace (ts =? ve_ts v) with false by lia. cbn [andb]. destruct (negb _ && _); auto. }
      rewrite <- HS. apply (IH rs s1); auto; [congruence|]. intros m' v' Hm' Hc. eapply HL; eauto. right. auto. }
  destruct HG as [W' HS]. destruct (get_ok fl sidof s' id k W' Hk) as (s2 & E & _). rewrite E, HS, He. eauto.
Qed.
Print Assumptions C31_received_deletion_sticks_partial.
Example C31_a_run : exists s, reachable true sid1 s /\ entry s 7 ki = Some (el ONil 2 1).
Proof.
  eexists. split; [exists 5, [VCreate 7; VRecv (MPut 7 ki (el (OInt 3) 1 1)); VRecv (MPut 7 ki (el ONil 2 1))]; eexists; split; [repeat constructor|vm_compute; reflexivity]|].
  vm_compute. reflexivity.
Qed.

(** C59.  The conflict-lost manager of a stigmergy is called exactly when one is installed and
    a conflict (same timestamp, other author) replaced an entry written by this robot by one of
    another robot; it is called once, with the lost entry. *)
Theorem C59_conflict_loser_is_told :
  forall fl sidof s m id k l v, reachable fl sidof s -> vmsg_ok fl sidof m -> vkey_class fl sidof k = true ->
  entry s id k = Some l -> carried id k m = Some v ->
  exists s' ls e', vrecv s m = Ok (s', ls) /\ entry s' id k = Some e' /\
    (ls = [] \/ exists k', same_key k' k = true /\ ls = [(id, k', l)]) /\
    (ls <> [] <->
       (exists vs, vfind s id = Some vs /\ vs_ocl vs = true) /\ ve_ts l = ve_ts v /\ ve_robot l <> ve_robot v /\
       ve_robot l = st_robot s /\ ve_robot e' <> st_robot s).
Proof.
  intros fl sidof s m id k l v HR Hm Hk Hl HC. apply (reachable_winv fl sidof) in HR as W.
  assert (HG : forall put i k' v', vkey_class fl sidof k' = true -> (if (i =? id) && same_key k' k then Some v' else None) = Some v ->
    exists s' ls e', recv s put i k' v' = Ok (s', ls) /\ entry s' id k = Some e' /\ (ls = [] \/ exists k', same_key k' k = true /\ ls = [(id, k', l)]) /\
    (ls <> [] <-> (exists vs, vfind s id = Some vs /\ vs_ocl vs = true) /\ ve_ts l = ve_ts v /\ ve_robot l <> ve_robot v /\
       ve_robot l = st_robot s /\ ve_robot e' <> st_robot s)).
  { intros put i k' v' Hk' Hc. destruct ((i =? id) && same_key k' k) eqn:E; [|discriminate]. inversion Hc; subst v'. clear Hc.
    apply andb_true_iff in E as [E1 E2]. assert (i = id) by lia. subst i.
    destruct (vfind s id) as [vs|] eqn:HV; [|unfold entry in Hl; rewrite HV in Hl; discriminate].
    destruct (accept_ok fl sidof s id vs k' v W HV Hk') as (s1 & s2 & A1 & A2 & AE).
    assert (HEE : forall x put s', effect fl sidof s (Some (id, k', Some x)) put s' -> entry s' id k = Some x).
    { intros x p s' EF. rewrite (ef_e _ _ _ _ _ _ EF id k Hk), Z.eqb_refl, E2. auto. }
    unfold recv, recv_put, recv_query. rewrite HV, (vfetch_ok fl sidof s id vs k' W HV Hk'), (entry_cong fl sidof s id k' k W Hk' Hk E2), Hl. cbn [bind].
    destruct (ve_ts l <? ve_ts v) eqn:Elt.
    { exists s2, [], v. split; [destruct put; rewrite A1; cbn [bind]; rewrite A2; reflexivity|]. split; [eapply HEE; eauto|]. split; auto.
      split; [congruence|]. intros (_ & H & _). lia. }
    destruct ((ve_ts l =? ve_ts v) && negb (ve_robot l =? ve_robot v)) eqn:Ec.
    - destruct (conflict_ok fl sidof s id vs k' l v W HV Hk') as (s' & ls & EC & EV & Hls).
      assert (HR2 : (if put then vconflict s id vs k' l v else
          if ve_ts l >? ve_ts v then s1 <- vsay s true id k' l;; Ok (s1, []) else vconflict s id vs k' l v) = Ok (s', ls)).
      { destruct put; auto. replace (ve_ts l >? ve_ts v) with false by lia. auto. }
      destruct (resolve vs k' l v) as [c|]; cbn in EV.
      + exists s', ls, c. split; [auto|]. split; [eapply HEE; eauto|].
        destruct (negb (ve_robot c =? st_robot s) && (ve_robot l =? st_robot s) && vs_ocl vs) eqn:EB; subst ls.
        * split; [right; eauto|]. split; [|congruence]. intros _. apply andb_true_iff in EB as [EB Eo]. split; [exists vs; auto|]. splits; lia.
        * split; [auto|]. split; [congruence|]. intros ((vs' & Hvs & Ho) & H1 & H2 & H3 & H4). exfalso.
          inversion Hvs; subst vs'. rewrite Ho, andb_true_r in EB. lia.
      + exists s', ls, l. subst s' ls. split; [auto|]. split; auto. split; auto. split; [congruence|]. intros (_ & _ & _ & H3 & H4). congruence.
    - destruct put.
      + exists s, [], l. split; auto. split; auto. split; auto. split; [congruence|]. intros (_ & H1 & H2 & _). lia.
      + destruct (ve_ts l >? ve_ts v) eqn:Egt.
        * destruct (vsay_ok fl sidof s true id k' l W Hk') as (s3 & E3 & S3). exists s3, [], l. rewrite E3. split; auto.
          split; [rewrite (said_entry _ _ _ _ _ _ _ _ _ _ S3); auto|]. split; auto. split; [congruence|]. intros (_ & H1 & _). lia.
        * exists s, [], l. split; auto. split; auto. split; auto. split; [congruence|]. intros (_ & H1 & H2 & _). lia. }
  destruct m; cbn [carried] in HC; try discriminate; cbn [vrecv].
  - apply (HG true); auto.
  - apply (HG false); auto.
Qed.
Print Assumptions C59_conflict_loser_is_told.
Example C59_a_run : exists s o, vrun (vst_new 1) [VCreate 7; VOnLost 7; VPut 7 ki (OInt 1); VRecv (MPut 7 ki (el (OInt 2) 1 9))] = Ok (s, o) /\
  last o RNone = RLost [(7, ki, el (OInt 1) 1 1)].
Proof. do 2 eexists. split; [vm_compute; reflexivity|]; vm_compute; reflexivity. Qed.

(** C60 (partial).  Any number of robots, any topology in which links are reliable, any
    interleaving of calls, sends and receptions, messages in any order: if only one robot
    writes a key and never deletes it, then whenever nothing is queued or underway every robot
    that hears the writer, directly or through others, reads the last value written. *)
Theorem C60_single_writer_propagates_partial :
  forall fl sidof links rid id k w ops, vkey_class fl sidof k = true ->
  Forall (nop_ok fl sidof id k w) ops -> zlen ops < 65536 ->
  exists n, nrun links (net_new rid id) ops = Ok n /\
    (quiet n -> forall j, hears links w j -> exists s', vs_get (n_st n j) id k = Ok (s', last (written id k ops) ONil)).
Proof.
  intros fl sidof links rid id k w ops Hk HF HZ.
  destruct (nrun_ok fl sidof id k (rid w) Hk links rid w eq_refl ops [] _ (ninv_new fl sidof id k (rid w) Hk links rid w) HF) as (n & E & NI).
  { change (zlen (@nil obj)) with 0. lia. }
  exists n. split; auto. intros HQ j HJ. pose proof (quiet_last fl sidof id k (rid w) Hk links rid w _ n j NI HQ HJ) as HL.
  destruct (get_ok fl sidof (n_st n j) id k (lo_w _ _ _ _ _ _ _ (proj1 (ni_l _ _ _ _ _ _ _ _ _ _ NI j))) Hk) as (s' & Eg & _).
  exists s'. rewrite Eg, HL. auto.
Qed.
Print Assumptions C60_single_writer_propagates_partial.
Definition line (i j : nat) : bool := Nat.eqb (S i) j || Nat.eqb i (S j).
Definition a_net_run : list nop :=
  [NLocal 0 (VPut 7 ki (OInt 1)); NLocal 2 (VGet 7 ki); NSend 2; NSend 0; NRecv 1 1; NLocal 0 (VPut 7 ki (OInt 2)); NSend 0; NSend 1;
   NRecv 1 0; NRecv 1 0; NSend 1; NRecv 2 1; NRecv 2 0; NRecv 3 0; NRecv 3 0; NRecv 3 0; NRecv 0 0; NRecv 0 0; NSend 2; NRecv 1 0; NRecv 3 0; NSend 3; NRecv 2 0; NRecv 4 0].
Example C60_a_run : exists n, nrun (fun i j => line i j && (Nat.leb i 2) && (Nat.leb j 2)) (net_new Z.of_nat 7) a_net_run = Ok n /\
  Forall (nop_ok true sid1 7 ki 0) a_net_run /\
  zlen a_net_run < 65536 /\ quiet n /\ hears (fun i j => line i j && (Nat.leb i 2) && (Nat.leb j 2)) 0 2 /\ last (written 7 ki a_net_run) ONil = OInt 2 /\
  entry (n_st n 2%nat) 7 ki = Some (el (OInt 2) 2 0).
Proof.
  eexists. split; [vm_compute; reflexivity|]. split; [repeat constructor; cbn; try discriminate; auto|]. split; [vm_compute; reflexivity|].
  split; [intros [|[|[|[|[|i]]]]]; (split; vm_compute; reflexivity)|]. split; [|split; vm_compute; reflexivity].
  eapply (h_step _ 0%nat 1%nat 2%nat); [eapply (h_step _ 0%nat 0%nat 1%nat); [constructor|reflexivity]|reflexivity].
Qed.
(** The general statement (any robots write) is false.  Robots 1 - 0 - 2 in a line: 0 writes
    the key, 2 learns it; 1 asks for the key and then writes it too.  Robot 0 takes the value of
    1 (higher id), but its queued answer with its own value has the same timestamp and so keeps
    the place of the new one (buzzoutmsg.c 341): robot 2 never hears the winning value. *)
Definition star (i j : nat) : bool := match i, j with 0, S _ | S _, 0 => true | _, _ => false end%nat.
Definition conflict_run : list nop :=
  [NLocal 0 (VPut 7 ki (OInt 10)); NSend 0; NRecv 2 0; NSend 2; NRecv 0 0;  (* 0 and 2 agree on 10 *)
   NLocal 1 (VGet 7 ki); NSend 1; NRecv 0 0;                                (* 0 queues an answer to 1 *)
   NLocal 1 (VPut 7 ki (OInt 20)); NSend 1; NRecv 0 0;                      (* 0 adopts 20 *)
   NSend 0; NRecv 2 0; NRecv 1 0; NRecv 1 0; NSend 1; NRecv 0 0].
Theorem C60_conflict_not_propagated_refuted :
  exists n, nrun (fun i j => star i j && (Nat.leb i 2) && (Nat.leb j 2)) (net_new Z.of_nat 7) conflict_run = Ok n /\
  quiet n /\
  entry (n_st n 0%nat) 7 ki = Some (el (OInt 20) 1 1) /\ entry (n_st n 1%nat) 7 ki = Some (el (OInt 20) 1 1) /\
  entry (n_st n 2%nat) 7 ki = Some (el (OInt 10) 1 0).
Proof.
  eexists. split; [vm_compute; reflexivity|]. split.
  - intros [|[|[|i]]]; (split; vm_compute; reflexivity).
  - splits; vm_compute; reflexivity.
Qed.
Print Assumptions C60_conflict_not_propagated_refuted.
(** With a deletion it is false even with one writer: writing the key again after deleting it
    starts again with timestamp 1, so the deletion (timestamp 2) wins when it comes back: the
    value is lost everywhere, at the writer too. *)
Definition rewrite_run : list nop :=
  [NLocal 0 (VPut 7 ki (OInt 10)); NSend 0; NRecv 1 0; NSend 1; NRecv 0 0; NLocal 0 (VPut 7 ki ONil); NSend 0; NLocal 0 (VPut 7 ki (OInt 20)); NSend 0;
   NRecv 1 0; NRecv 1 0; NSend 1; NRecv 0 0; NSend 0; NRecv 1 0].
Theorem C60_write_after_delete_refuted :
  exists n, nrun (fun i j => line i j && (Nat.leb i 1) && (Nat.leb j 1)) (net_new Z.of_nat 7) rewrite_run = Ok n /\
  quiet n /\ last (written 7 ki rewrite_run) ONil = OInt 20 /\
  entry (n_st n 0%nat) 7 ki = Some (el ONil 2 0) /\ entry (n_st n 1%nat) 7 ki = Some (el ONil 2 0).
Proof.
  eexists. split; [vm_compute; reflexivity|]. split; [intros [|[|[|i]]]; (split; vm_compute; reflexivity)|]. splits; vm_compute; reflexivity.
Qed.
Print Assumptions C60_write_after_delete_refuted.
