From Verif Require Import Base ListLemmas Dict DictSpec PDict DictProofs PDictKeys Strman Obj ObjSpec OutMsg OutMsgSpec OutMsgProofs
  Swarm SwarmSpec MembersProofs OutMsgRun.

Section Own.
Variable u : Z.
Hypothesis Hu : 0 <= u < 65536.
Notation oinv := (oinv true (fun _ => 0) u).
Notation ook := (oop_ok true (fun _ => 0) u).
Notation dwf := (PWf uintkeyhash Z.eqb).

Record swinv (s : swst) (m : memb) : Prop := {
  wi_wf : dwf (sw_own s);
  wi_get : forall id, match sw_get s id with Some z => m id = Some (negb (z =? 0)) | None => m id = None end;
  wi_key : Forall (fun e => swid_ok u (fst e)) (pentries (sw_own s));
  wi_out : oinv (sw_out s)
}.
Lemma swinv_new : swinv sw_new (fun _ => None).
Proof.
  constructor.
  - apply (wf_new _ _ _ good_u). lia.
  - intro id. unfold sw_get, sw_new. cbn [sw_own]. rewrite (get_new _ _ _ good_u) by lia. auto.
  - replace (pentries (sw_own sw_new)) with (@nil (Z * Z)) by reflexivity. constructor.
  - apply oinv_new.
Qed.
Lemma nodupk_map {V} (l : list (Z * V)) : NoDupK Z.eqb l -> NoDup (map fst l).
Proof.
  induction l as [|e l IH]; cbn; [constructor|]. intros [H1 H2]. constructor; auto. intro Hc. apply in_map_iff in Hc as (x & Hx & Hin).
  specialize (H1 x Hin). lia.
Qed.
Lemma wrap16_ok id : 0 <= id < 65536 -> wrap16 id = id.
Proof. intro H. unfold wrap16. apply Z.mod_small. change (2 ^ 16) with 65536. lia. Qed.

(** Writing an entry. *)
Lemma swinv_set s m id v q : swinv s m -> swid_ok u id -> oinv q ->
  swinv {| sw_own := sw_own (sw_set s id v); sw_out := q |} (put m id (negb (v =? 0))).
Proof.
  intros I Hid HQ. destruct I as [W G K O]. constructor; cbn [sw_own sw_set sw_out]; auto.
  - apply (wf_set _ _ _ good_u); auto.
  - intro i. unfold sw_get. cbn [sw_own]. rewrite (get_set _ _ _ good_u) by auto. unfold put. rewrite (Z.eqb_sym i id). destruct (id =? i); auto. apply G.
  - apply Forall_forall. intros [k x] Hin.
    assert (E : pget uintkeyhash intkeycmp (pset uintkeyhash intkeycmp (sw_own s) id v) k = Some x).
    { apply (get_in _ _ _ good_u); [apply (wf_set _ _ _ good_u); auto|]. exists k. split; auto. lia. }
    rewrite (get_set _ _ _ good_u) in E by auto. destruct (id =? k) eqn:Ek; [assert (id = k) by lia; subst; auto|].
    apply (get_in _ _ _ good_u) in E as (k' & Hk & Hkk); auto. assert (k = k') by lia. subst. rewrite Forall_forall in K. apply (K _ Hk).
Qed.
Lemma oinv_join q join id : oinv q -> swid_ok u id -> exists q', append_joinleave q join id = Ok q' /\ oinv q' /\
  oq_run q [if join then OJoin id else OLeave id] = Ok (q', [[]]).
Proof.
  intros [V S] Hid. destruct (joinleave_ok u Hu q join id S Hid) as (l & j & v & E & S' & _). exists (set_swarm q l j v).
  splits; auto.
  - split; auto. eapply vinv_ext; eauto.
  - destruct join; cbn [oq_run oq_step]; rewrite E; reflexivity.
Qed.

(** What an operation does to the membership, what it returns, and the announcements it
    makes. *)
Lemma announced_nil oo (c c' : Z -> bool) : (forall s, c s = c' s) -> forall s, announced oo c s = announced oo c' s.
Proof. apply announced_ext. Qed.

Lemma swinv_step s m o : swinv s m -> swop_ok u o ->
  exists s' r ms oo outs, sw_step s o = Ok (s', r, ms) /\ swinv s' (memb_step m o) /\ sres_ok m o r /\
    Forall ook oo /\ oq_run (sw_out s) oo = Ok (sw_out s', outs) /\ concat outs = ms /\
    (silently_leaves m o = false -> forall c, (forall i, c i = is_member m i) -> forall i, announced oo c i = is_member (memb_step m o) i).
Proof.
  intros I Ho. pose proof (wi_get s m I) as G. pose proof (wi_out s m I) as O. pose proof (wi_wf s m I) as W.
  assert (Hput : forall id b i, is_member (put m id b) i = if i =? id then b else is_member m i).
  { intros id b i. unfold is_member, put. destruct (i =? id); auto. }
  assert (HJ : forall id c, (forall i, c i = is_member m i) -> forall i, announced [OJoin id] c i = is_member (put m id true) i).
  { intros id c Hc i. cbn. rewrite Hput, Hc. destruct (i =? id); auto. }
  assert (HL : forall id c, (forall i, c i = is_member m i) -> forall i, announced [OLeave id] c i = is_member (put m id false) i).
  { intros id c Hc i. cbn. rewrite Hput, Hc. destruct (i =? id); auto. }
  assert (HN : forall id c, (forall i, c i = is_member m i) -> is_member m id = false -> forall i, announced [] c i = is_member (put m id false) i).
  { intros id c Hc Hf i. cbn. rewrite Hput, Hc. destruct (i =? id) eqn:E; auto. assert (i = id) by lia. subst; auto. }
  assert (Hchk : forall a, 0 <= a < 65536 -> swarm_check s a = is_member m a).
  { intros a Ha. unfold swarm_check, is_member. rewrite wrap16_ok by auto. specialize (G a). destruct (sw_get s a); rewrite G; auto. }
  assert (Hset : forall id v (q : oq), oinv q -> swid_ok u id ->
            swinv {| sw_own := sw_own (sw_set s id (if v : bool then 1 else 0)); sw_out := q |} (put m id v)).
  { intros id v q Hq Hid. replace (put m id v) with (put m id (negb ((if v then 1 else 0) =? 0))) by (destruct v; auto). apply swinv_set; auto. }
  assert (Hop : forall cond id a b, swid_ok u id -> swid_ok u a -> swid_ok u b ->

     exists s' oo outs, swarm_setop cond s id a b = Ok (s', SSwarm id) /\ swinv s' (put m id (cond (is_member m a) (is_member m b))) /\
       Forall ook oo /\ oq_run (sw_out s) oo = Ok (sw_out s', outs) /\ concat outs = [] /\
       (is_member m id && negb (cond (is_member m a) (is_member m b)) = false -> forall c, (forall i, c i = is_member m i) -> 
          forall i, announced oo c i = is_member (put m id (cond (is_member m a) (is_member m b))) i)).
  { intros cond id a b [Hi Hi'] [Ha Ha'] [Hb Hb']. unfold swarm_setop. rewrite wrap16_ok, !Hchk by auto.
    destruct (cond (is_member m a) (is_member m b)) eqn:Ec.
    - destruct (oinv_join (sw_out s) true id O (conj Hi Hi')) as (q' & E & Hq & HR). unfold sw_announce. cbn [sw_set sw_out]. rewrite E. cbn [bind].
      do 3 eexists. split; [reflexivity|]. split; [apply (Hset id true); auto; split; auto|]. refine (conj _ (conj HR _)); [constructor; [unfold oop_ok, swid_ok in *; tauto|constructor]|]. split; [reflexivity|].
      intros _. apply HJ.
    - cbn [bind]. exists (sw_set s id 0), [], []. split; [reflexivity|]. split; [apply (Hset id false (sw_out s)); auto; split; auto|]. split; [constructor|].
      split; [reflexivity|]. split; [reflexivity|]. intros Hs c Hc. apply HN; auto. rewrite andb_true_r in Hs. auto. }
  destruct o as [id|id|id|id c|id|a b|id a b|id a b|id a b| |]; cbn [sw_step swop_ok] in *.
  - unfold swarm_create. rewrite wrap16_ok by tauto. specialize (G id) as Gi. cbn [memb_step sres_ok silently_leaves]. destruct (sw_get s id) as [z|] eqn:E; rewrite Gi.
    + exists s, (SSwarm id), [], [], []. splits; auto.
    + exists (sw_set s id 0), (SSwarm id), [], [], []. splits; auto.
      * apply (Hset id false (sw_out s)); auto.
      * intros _ c Hc. apply HN; auto. unfold is_member. rewrite Gi. auto.
  - unfold swarm_join. rewrite wrap16_ok by tauto. specialize (G id) as Gi. cbn [memb_step sres_ok silently_leaves]. destruct (sw_get s id) as [z|] eqn:E; rewrite Gi.
    + destruct (oinv_join (sw_out s) true id O Ho) as (q' & EJ & Hq & HR). unfold sw_announce. cbn [sw_set sw_out]. rewrite EJ. cbn [bind].
      do 5 eexists. split; [reflexivity|]. split; [apply (Hset id true); auto|]. split; [auto|]. refine (conj _ (conj HR _)); [constructor; [unfold oop_ok, swid_ok in *; tauto|constructor]|]. split; [reflexivity|].
      intros _. apply HJ.
    + exists s, SErr, [], [], []. splits; auto.
  - unfold swarm_leave. rewrite wrap16_ok by tauto. specialize (G id) as Gi. cbn [memb_step sres_ok silently_leaves]. destruct (sw_get s id) as [z|] eqn:E; rewrite Gi.
    + destruct (oinv_join (sw_out s) false id O Ho) as (q' & EJ & Hq & HR). unfold sw_announce. cbn [sw_set sw_out]. rewrite EJ. cbn [bind].
      do 5 eexists. split; [reflexivity|]. split; [apply (Hset id false); auto|]. split; [auto|]. refine (conj _ (conj HR _)); [constructor; [unfold oop_ok, swid_ok in *; tauto|constructor]|]. split; [reflexivity|].
      intros _. apply HL.
    + exists s, SErr, [], [], []. splits; auto.
  - unfold swarm_select. destruct Ho as [Ho Hc]. rewrite wrap16_ok by tauto. specialize (G id) as Gi. cbn [memb_step sres_ok silently_leaves].
    assert (Hw : (wrap8 c =? 0) = (c =? 0)).
    { unfold wrap8. change (2 ^ 8) with 256. destruct (c =? 0) eqn:Ez; [assert (c = 0) by lia; subst; auto|]. destruct (c mod 256 =? 0) eqn:Em; auto. exfalso.
      assert (c = 0) by (apply Hc; lia). lia. }
    destruct (sw_get s id) as [z|] eqn:E; rewrite Gi.
    + destruct (oinv_join (sw_out s) (negb (wrap8 c =? 0)) id O Ho) as (q' & EJ & Hq & HR). unfold sw_announce. cbn [sw_set sw_out]. rewrite EJ. cbn [bind].
      do 5 eexists. split; [reflexivity|]. rewrite Hw in HR. split; [rewrite <- Hw; apply swinv_set; auto|]. split; [auto|]. refine (conj _ (conj HR _)).
      * destruct (c =? 0); (constructor; [exact Ho|constructor]).
      * split; [reflexivity|]. intros _. destruct (c =? 0); cbn [negb]; [apply HL|apply HJ].
    + exists s, SErr, [], [], []. splits; auto.
  - unfold swarm_in. rewrite wrap16_ok by tauto. specialize (G id) as Gi. cbn [memb_step sres_ok silently_leaves]. destruct (sw_get s id) as [z|] eqn:E; rewrite Gi.
    + exists s, (SInt z), [], [], []. splits; auto. exists z. split; auto. destruct (z =? 0) eqn:Ez; cbn; split; intros; try discriminate; try lia; auto.
    + exists s, SErr, [], [], []. splits; auto.
  - unfold swarm_others. destruct Ho as [Ha Hb]. rewrite !wrap16_ok by tauto. specialize (G a) as Gi. cbn [memb_step sres_ok silently_leaves]. destruct (sw_get s a) as [z|] eqn:E; rewrite Gi.
    + destruct (z =? 0) eqn:Ez; cbn [negb].
      * destruct (oinv_join (sw_out s) true b O Hb) as (q' & EJ & Hq & HR). cbn [Z.eqb]. unfold sw_announce. cbn [sw_set sw_out]. rewrite EJ. cbn [bind].
        do 5 eexists. split; [reflexivity|]. split; [apply (Hset b true); auto|]. split; [auto|]. refine (conj _ (conj HR _)); [constructor; [unfold oop_ok, swid_ok in *; tauto|constructor]|]. split; [reflexivity|].
        intros _. apply HJ.
      * cbn [Z.eqb bind]. exists (sw_set s b 0), (SSwarm b), [], [], []. splits; auto.
        -- apply (Hset b false (sw_out s)); auto.
        -- intros Hs c Hc. apply HN; auto. rewrite Hput, Z.eqb_refl, andb_true_r in Hs. auto.
    + exists s, SErr, [], [], []. splits; auto.
  - destruct (Hop (fun x y => x || y) id a b) as (s' & oo & outs & E1 & E2 & E3 & E4 & E5 & E6); try apply Ho; auto. unfold swarm_union. rewrite E1. cbn [bind].
    do 5 eexists. split; [reflexivity|]. cbn [memb_step sres_ok silently_leaves]. rewrite Hput, Z.eqb_refl. splits; eauto.
  - destruct (Hop (fun x y => x && y) id a b) as (s' & oo & outs & E1 & E2 & E3 & E4 & E5 & E6); try apply Ho; auto. unfold swarm_intersection. rewrite E1. cbn [bind].
    do 5 eexists. split; [reflexivity|]. cbn [memb_step sres_ok silently_leaves]. rewrite Hput, Z.eqb_refl. splits; eauto.
  - destruct (Hop (fun x y => x && negb y) id a b) as (s' & oo & outs & E1 & E2 & E3 & E4 & E5 & E6); try apply Ho; auto. unfold swarm_difference. rewrite E1. cbn [bind].
    do 5 eexists. split; [reflexivity|]. cbn [memb_step sres_ok silently_leaves]. rewrite Hput, Z.eqb_refl. splits; eauto.
  - destruct (next_ok true (fun _ => 0) u (sw_out s) O) as (q' & E & I' & _). rewrite E. cbn [bind].
    do 3 eexists. exists [OSend]. eexists. split; [reflexivity|]. split; [|split; [reflexivity|split; [repeat constructor|]]].
    + constructor; cbn [sw_own sw_out]; try apply I; auto.
    + cbn [oq_run oq_step]. rewrite E. cbn [bind sw_out]. split; [reflexivity|]. split; [cbn; rewrite app_nil_r; reflexivity|]. intros _ c Hc. exact Hc.
  - destruct (psize (sw_own s) =? 0) eqn:Ez.
    + exists s, SNone, [], [], []. splits; auto; try reflexivity.
    + assert (Hok : ook (OList (sw_own s))).
      { split; [apply I|]. apply nodupk_map. apply W. }
      do 3 eexists. exists [OList (sw_own s)]. eexists. split; [reflexivity|]. split; [|split; [reflexivity|split; [constructor; [exact Hok|constructor]|]]].
      * constructor; cbn [sw_own sw_out]; try apply I. destruct O as [V S]. split; [eapply vinv_ext; eauto|apply sinv_list; auto].
      * split; [reflexivity|]. split; [reflexivity|]. intros _ c Hc i. cbn [announced memb_step].
        unfold is_member. specialize (G i). unfold sw_get in G.
        destruct (existsb _ _) eqn:Ex.
        -- apply existsb_exists in Ex as ([k v] & Hin & He). cbn in He. apply andb_true_iff in He as [Hk Hv].
           assert (k = i) by lia. subst k. assert (E : pget uintkeyhash intkeycmp (sw_own s) i = Some v).
           { apply (get_in _ _ _ good_u); auto. exists i. split; auto. }
           rewrite E in G. rewrite G, Hv. auto.
        -- destruct (pget uintkeyhash intkeycmp (sw_own s) i) as [v|] eqn:E; rewrite G; auto.
           destruct (v =? 0) eqn:Ev; auto. exfalso. apply (get_in _ _ _ good_u) in E as (k' & Hin & Hk); auto.
           assert (HX : existsb (fun e : Z * Z => (fst e =? i) && negb (snd e =? 0)) (pentries (sw_own s)) = true); [|congruence].
           apply existsb_exists. exists (k', v). split; auto. cbn. rewrite Ev. cbn. rewrite andb_true_r. lia.
Qed.

Lemma oq_run_app q a q1 o1 : oq_run q a = Ok (q1, o1) -> forall b, oq_run q (a ++ b) = ('(q2, o2) <- oq_run q1 b ;; Ok (q2, o1 ++ o2)).
Proof.
  revert q o1. induction a as [|x a IH]; intros q o1 E b; cbn [oq_run app] in *.
  - inversion E; subst. cbn. destruct (oq_run q1 b) as [[? ?]| | |]; auto.
  - destruct (oq_step q x) as [[q' s]| | |]; try discriminate. cbn [bind] in *.
    apply bind_ok in E as ([q2 s2] & E & E'). inversion E'; subst. rewrite (IH _ _ E). destruct (oq_run q1 b) as [[? ?]| | |]; auto.
Qed.
Lemma sw_run_ok ops : forall s m, swinv s m -> Forall (swop_ok u) ops ->
  exists s' rs ms oo outs, sw_run s ops = Ok (s', rs, ms) /\ swinv s' (fold_left memb_step ops m) /\ results_ok m ops rs /\
    Forall ook oo /\ oq_run (sw_out s) oo = Ok (sw_out s', outs) /\ concat outs = ms /\
    (never_silent m ops -> forall c, (forall i, c i = is_member m i) -> forall i, announced oo c i = is_member (fold_left memb_step ops m) i).
Proof.
  induction ops as [|o ops IH]; intros s m I HF; cbn [sw_run fold_left].
  - exists s, [], [], [], []. splits; auto. cbn. auto.
  - inversion HF; subst. destruct (swinv_step s m o I H1) as (s1 & r & ms & oo & outs & -> & I1 & HR & HK & HQ & HC & HA). cbn [bind].
    destruct (IH s1 _ I1 H2) as (s2 & rs & ms2 & oo2 & outs2 & -> & I2 & HR2 & HK2 & HQ2 & HC2 & HA2). cbn [bind].
    exists s2, (r :: rs), (ms ++ ms2), (oo ++ oo2), (outs ++ outs2). splits; auto.
    + cbn. auto.
    + apply Forall_app; auto.
    + rewrite (oq_run_app _ _ _ _ HQ), HQ2. reflexivity.
    + rewrite concat_app. congruence.
    + intros [HS HS2] c Hc i. rewrite announced_app. apply HA2; auto.
Qed.
End Own.
