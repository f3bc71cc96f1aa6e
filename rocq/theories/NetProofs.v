From Verif Require Import Base ListLemmas Dict DictSpec PDict DictProofs PDictKeys Strman Obj ObjSpec ObjProofs OutMsg OutMsgSpec OutMsgProofs OutMsgRun
  Vstig VstigSpec VstigProofs VstigConv Net.

Section N.
Variables (fl : bool) (sidof : str -> Z) (id : Z) (k : obj) (rw : Z).
Notation P := (vkey_class fl sidof).
Hypothesis Hk : P k = true.
Notation winv := (winv fl sidof).
Let G := good_vclass fl sidof.

(** The entry with timestamp n is the n-th value written. *)
Definition okel (h : list obj) (e : velem) : Prop :=
  1 <= ve_ts e /\ ve_ts e <= zlen h /\ nth_error h (Z.to_nat (ve_ts e - 1)) = Some (ve_data e) /\ ve_robot e = rw /\ ve_data e <> ONil.
Definition okm (h : list obj) (m : omsg) : Prop :=
  match m with
  | MPut i k' e => i = id -> same_key k' k = true -> okel h e
  | MQuery i k' e => i = id -> same_key k' k = true -> okel h e \/ (ve_data e = ONil /\ ve_ts e = 0)
  | _ => True
  end.
Definition ets (s : vstate) : Z := match entry s id k with Some e => ve_ts e | None => 0 end.
Definition mts (m : omsg) : Z := match carried id k m with Some e => ve_ts e | None => 0 end.
Definition qts (s : vstate) : Z := match cur_of (st_out s) id k with Some m => ts_of m | None => 0 end.

Record loc (h : list obj) (s : vstate) : Prop := {
  lo_w : winv s;
  lo_x : exists_vs s id;
  lo_e : forall e, entry s id k = Some e -> okel h e;
  lo_q : forall m, cur_of (st_out s) id k = Some m -> okm h m
}.
Lemma okel_app h v e : okel h e -> okel (h ++ [v]) e.
Proof.
  intros (H1 & H2 & H3 & H4 & H5). split; auto. rewrite zlen_app. change (zlen [v]) with 1. split; [lia|]. split; auto.
  rewrite nth_error_app1; auto. apply nth_error_Some. congruence.
Qed.
Lemma okm_app h v m : okm h m -> okm (h ++ [v]) m.
Proof. destruct m; cbn; auto; intros H A B; [apply okel_app; auto|]. destruct (H A B); auto using okel_app. Qed.
Lemma loc_app h v s : loc h s -> loc (h ++ [v]) s.
Proof. intros []. constructor; auto; intros; [apply okel_app|apply okm_app]; auto. Qed.
Lemma ets_bound h s : loc h s -> 0 <= ets s <= zlen h.
Proof. intro L. unfold ets. pose proof (zlen_nonneg h). destruct (entry s id k) as [e|] eqn:E; [|lia]. apply (lo_e h s L) in E as (H1 & H2 & _). lia. Qed.

(** Effect of announcing on the pending message. *)
Lemma say_other id' k' put e c : (id' =? id) && same_key k' k = false -> say id' k' put e id k c = c.
Proof. intro H. unfold say, upd_newest, asked. destruct put; cbn [filter about]; rewrite H; destruct c; auto. Qed.
Definition mk (put : bool) i k' e := if put then MPut i k' e else MQuery i k' e.
Lemma say_same id' k' put e c : (id' =? id) && same_key k' k = true ->
  say id' k' put e id k c = match c with Some m0 => if ts_of m0 <? ve_ts e then Some (mk put id' k' e) else c | None => Some (mk put id' k' e) end.
Proof. intro H. unfold say, upd_newest, asked. destruct put; cbn [filter about]; rewrite H; destruct c; auto. Qed.

(** A local step: the entry and the pending message only get newer, and a newer entry is
    announced. *)
Definition grows (h : list obj) (s s' : vstate) : Prop :=
  loc h s' /\ ets s <= ets s' /\ (qts s <= qts s' \/ 0 = qts s) /\ (ets s < ets s' -> ets s' <= qts s') /\ st_robot s' = st_robot s.

Lemma effect_exists s ch msg s' i : effect fl sidof s ch msg s' -> exists_vs s i -> exists_vs s' i.
Proof. intros E. apply exists_oc. apply E. Qed.

Lemma okm_mk h put i k' e : ((i =? id) && same_key k' k = true -> okel h e \/ (put = false /\ ve_data e = ONil /\ ve_ts e = 0)) -> okm h (mk put i k' e).
Proof.
  intro H. assert (H' : i = id -> same_key k' k = true -> okel h e \/ (put = false /\ ve_data e = ONil /\ ve_ts e = 0)).
  { intros -> E. apply H. rewrite E, Z.eqb_refl. auto. }
  destruct put; cbn; intros A B; destruct (H' A B) as [|(? & ? & ?)]; auto. discriminate.
Qed.
Lemma effect_grows h s ch msg s' : loc h s -> effect fl sidof s ch msg s' ->
  (forall i k' e, ch = Some (i, k', e) -> (i =? id) && same_key k' k = true -> exists x, e = Some x /\ okel h x /\ ets s <= ve_ts x /\
      (exists put, msg = Some (put, i, k', x))) ->
  (forall put i k' e, msg = Some (put, i, k', e) -> (i =? id) && same_key k' k = true -> okel h e \/ (put = false /\ ve_data e = ONil /\ ve_ts e = 0)) ->
  grows h s s'.
Proof.
  intros L EF HC HM. pose proof (ef_e _ _ _ _ _ _ EF id k Hk) as HE. pose proof (ef_q _ _ _ _ _ _ EF id k Hk) as HQ.
  assert (HEt : (entry s' id k = entry s id k) \/ exists i k' x put, ch = Some (i, k', Some x) /\ (i =? id) && same_key k' k = true /\ entry s' id k = Some x /\ okel h x /\ ets s <= ve_ts x /\ msg = Some (put, i, k', x)).
  { destruct ch as [[[i k'] e]|]; [|auto]. destruct ((i =? id) && same_key k' k) eqn:E; [|auto].
    destruct (HC i k' e eq_refl E) as (x & -> & H1 & H2 & put & H3). right. exists i, k', x, put. splits; auto. }
  assert (HQt : (forall m, cur_of (st_out s') id k = Some m -> okm h m) /\ (qts s <= qts s' \/ 0 = qts s) /\
                (forall put i k' e, msg = Some (put, i, k', e) -> (i =? id) && same_key k' k = true -> ve_ts e <= qts s')).
  { unfold qts. rewrite HQ. destruct msg as [[[[put i] k'] e]|].
    - destruct ((i =? id) && same_key k' k) eqn:E.
      + rewrite say_same by auto. pose proof (HM put i k' e eq_refl E) as HMe.
        assert (HO : okm h (mk put i k' e)) by (apply okm_mk; auto).
        assert (HT : ts_of (mk put i k' e) = ve_ts e) by (destruct put; auto).
        destruct (cur_of (st_out s) id k) as [m0|] eqn:Ec.
        * destruct (ts_of m0 <? ve_ts e) eqn:El; splits.
          -- intros m Hm. inversion Hm; subst. auto.
          -- left. lia.
          -- intros p i2 k2 e2 Hx _. inversion Hx; subst. lia.
          -- intros m Hm. inversion Hm; subst. eapply lo_q; eauto.
          -- left. lia.
          -- intros p i2 k2 e2 Hx _. inversion Hx; subst. lia.
        * splits; auto.
          -- intros m Hm. inversion Hm; subst. auto.
          -- intros p i2 k2 e2 Hx _. inversion Hx; subst. lia.
      + rewrite say_other by auto. splits.
        * apply (lo_q h s L).
        * left. lia.
        * intros p i2 k2 e2 Hx Hy. inversion Hx; subst. congruence.
    - splits; [apply (lo_q h s L)|left; lia|discriminate]. }
  destruct HQt as (Q1 & Q2 & Q3). assert (HX : exists_vs s' id) by (eapply effect_exists; eauto; apply L).
  unfold grows. destruct HEt as [HEt|(i & k' & x & put & -> & Eik & Hx & Hox & Hts & ->)].
  - splits; auto.
    + constructor; auto; [apply EF|]. rewrite HEt. apply (lo_e h s L).
    + unfold ets. rewrite HEt. lia.
    + unfold ets. rewrite HEt. lia.
    + apply EF.
  - specialize (Q3 put i k' x eq_refl Eik). assert (Hes : ets s' = ve_ts x) by (unfold ets; rewrite Hx; auto). rewrite Hes. splits; auto.
    + constructor; auto; [apply EF|]. intros e He. rewrite Hx in He. inversion He; subst. auto.
    + apply EF.
Qed.
Lemma grows_refl h s : loc h s -> grows h s s.
Proof. intro L. unfold grows. splits; auto; lia. Qed.

(** Receiving a message. *)
Lemma recv_grows h s m : loc h s -> vmsg_ok fl sidof m -> okm h m -> exists s' ls, vrecv s m = Ok (s', ls) /\ grows h s s' /\
  (mts m <= ets s') /\ (ets s = zlen h -> entry s' id k = entry s id k).
Proof.
  intros L Hm Ho.
  assert (HR : forall put i k' v, P k' = true -> okm h (mk put i k' v) -> exists s' ls, recv s put i k' v = Ok (s', ls) /\ grows h s s' /\
     mts (mk put i k' v) <= ets s' /\ (ets s = zlen h -> entry s' id k = entry s id k)).
  { clear m Hm Ho. intros put i k' v Hk' Ho.
    assert (HOv : (i =? id) && same_key k' k = true -> okel h v \/ (put = false /\ ve_data v = ONil /\ ve_ts v = 0)).
    { intro E. apply andb_true_iff in E as [E1 E2]. assert (Ei : i = id) by lia. destruct put; cbn in Ho; [left; auto|]. destruct (Ho Ei E2); auto. }
    assert (HMT : mts (mk put i k' v) = if (i =? id) && same_key k' k then ve_ts v else 0).
    { unfold mts, mk. destruct put; cbn; destruct (_ && _); auto. }
    destruct (recv_ok fl sidof s put i k' v (lo_w h s L) Hk') as (s' & ls & E & HE). exists s', ls. split; auto.
    destruct (vfind s i) as [vs|] eqn:HV.
    2:{ assert (Hid : (i =? id) = false).
        { destruct (i =? id) eqn:Ei; auto. assert (i = id) by lia. subst. destruct (lo_x h s L HV). }
        rewrite HMT, Hid. cbn [andb]. destruct put.
        - subst s'. splits; auto; [apply grows_refl; auto|]. apply (ets_bound h s L).
        - assert (HG : grows h s s').
          { eapply effect_grows; eauto; [discriminate|]. intros p i2 k2 e2 Hx. inversion Hx; subst. rewrite Hid. discriminate. }
          splits; auto; [apply (ets_bound h s'); apply HG|]. intros _. apply (ef_e _ _ _ _ _ _ HE id k Hk). }
    destruct ((i =? id) && same_key k' k) eqn:Eik.
    - pose proof Eik as Eik'. apply andb_true_iff in Eik' as [Ei Es]. assert (i = id) by lia. subst i.
      rewrite (entry_cong fl sidof s id k' k) in HE; auto; [|apply L]. rewrite HMT. clear HMT. specialize (HOv eq_refl).
      unfold judge in HE. destruct (entry s id k) as [l|] eqn:El.
      + pose proof (lo_e h s L l El) as Hl. assert (Hel : ets s = ve_ts l) by (unfold ets; rewrite El; auto).
        destruct (ve_ts l <? ve_ts v) eqn:Elt.
        * cbn in HE. assert (Hov : okel h v) by (destruct HOv as [|(_ & _ & H0)]; auto; destruct Hl; lia).
          assert (HG : grows h s s').
          { eapply effect_grows; eauto.
            - intros i k2 e Hx _. inversion Hx; subst. exists v. splits; auto; [lia|eauto].
            - intros p i k2 e Hx _. inversion Hx; subst. auto. }
          splits; auto.
          -- unfold ets. rewrite (ef_e _ _ _ _ _ _ HE id k Hk), Eik. lia.
          -- intro Hz. destruct Hov as (_ & Hov & _). lia.
        * assert (Hc : (ve_ts l =? ve_ts v) && negb (ve_robot l =? ve_robot v) = false).
          { destruct (ve_ts l =? ve_ts v) eqn:Et; auto. cbn [andb]. destruct HOv as [(_ & _ & _ & Hr & _)|(_ & _ & H0)].
            - destruct Hl as (_ & _ & _ & Hr' & _). rewrite Hr, Hr', Z.eqb_refl. auto.
            - destruct Hl as (Hl & _). lia. }
          rewrite Hc in HE. destruct (negb put && (ve_ts l >? ve_ts v)) eqn:Ef; cbn in HE.
          -- assert (HG : grows h s s').
             { eapply effect_grows; eauto; [discriminate|]. intros p i k2 e Hx _. inversion Hx; subst. auto. }
             pose proof (ef_e _ _ _ _ _ _ HE id k Hk) as HEq. cbn in HEq. rewrite El in HEq. splits; auto. unfold ets. rewrite HEq. lia.
          -- subst s'. splits; auto; [apply grows_refl; auto|lia].
      + assert (Hz : ets s = 0) by (unfold ets; rewrite El; auto).
        destruct (put || negb (is_nil (ve_data v))) eqn:Ep; cbn in HE.
        * assert (Hov : okel h v).
          { destruct HOv as [|(-> & H0 & _)]; auto. rewrite H0 in Ep. discriminate. }
          assert (HG : grows h s s').
          { eapply effect_grows; eauto.
            - intros i k2 e Hx _. inversion Hx; subst. exists v. destruct Hov as (? & ?). splits; auto; [split; auto|lia|eauto].
            - intros p i k2 e Hx _. inversion Hx; subst. auto. }
          splits; auto.
          -- unfold ets. rewrite (ef_e _ _ _ _ _ _ HE id k Hk), Eik. lia.
          -- destruct Hov as (H1 & H2 & _). lia.
        * assert (HG : grows h s s').
          { eapply effect_grows; eauto; [discriminate|]. intros p i k2 e Hx _. inversion Hx; subst.
            destruct put; [discriminate|]. destruct HOv as [Hov|Hov]; auto. }
          pose proof (ef_e _ _ _ _ _ _ HE id k Hk) as HEq. cbn in HEq. rewrite El in HEq. splits; auto.
          unfold ets. rewrite HEq. destruct HOv as [Hov|(_ & _ & ->)]; [|lia].
          (* a query with a value would have been accepted *)
          exfalso. destruct Hov as (_ & _ & _ & _ & Hov). apply is_nil_f in Hov. rewrite Hov in Ep. destruct put; discriminate.
    - rewrite HMT. destruct (judge vs k' (entry s i k') put v) as [|e|p e]; cbn in HE.
      + subst s'. splits; auto; [apply grows_refl; auto|]. apply (ets_bound h s L).
      + assert (HG : grows h s s').
        { eapply effect_grows; eauto.
          - intros i2 k2 e2 Hx Hy. inversion Hx; subst. congruence.
          - intros p2 i2 k2 e2 Hx Hy. inversion Hx; subst. congruence. }
        splits; auto; [apply (ets_bound h s'); apply HG|]. intros _. rewrite (ef_e _ _ _ _ _ _ HE id k Hk), Eik. auto.
      + assert (HG : grows h s s').
        { eapply effect_grows; eauto; [discriminate|]. intros p2 i2 k2 e2 Hx Hy. inversion Hx; subst. congruence. }
        splits; auto; [apply (ets_bound h s'); apply HG|]. intros _. apply (ef_e _ _ _ _ _ _ HE id k Hk). }
  destruct m; cbn [vrecv]; try (exists s, []; splits; auto; [apply grows_refl; auto|]; apply (ets_bound h s L)).
  - apply (HR true); auto.
  - apply (HR false); auto.
Qed.

(** Calls other than a write to the key. *)
Definition local_ok (o : vop) : Prop :=
  match o with
  | VPut id' k' v => P k' = true /\ (id' =? id) && same_key k' k = false
  | VGet _ k' => P k' = true
  | VCreate id' => id' <> id
  | VRecv _ | VSend => False
  | _ => True
  end.
Lemma mgr_grows h s i vs' vs : loc h s -> vfind s i = Some vs -> vs_data vs' = vs_data vs -> grows h s (vupd s i vs') /\ entry (vupd s i vs') id k = entry s id k.
Proof.
  intros L HV HD. destruct (mgr_ok fl sidof s i vs' vs (lo_w h s L) HV HD) as [W' HE]. specialize (HE id k Hk). split; auto.
  assert (HX : exists_vs (vupd s i vs') id).
  { unfold exists_vs. rewrite (vfind_vupd fl sidof) by (try apply L; congruence). destruct (i =? id); [discriminate|apply L]. }
  unfold grows. assert (H1 : ets (vupd s i vs') = ets s) by (unfold ets; rewrite HE; auto).
  assert (H2 : qts (vupd s i vs') = qts s) by reflexivity. splits; try lia; auto.
  constructor; auto; [rewrite HE; apply L|]. apply (lo_q h s L).
Qed.
Lemma local_grows h s o : loc h s -> local_ok o -> exists s' r, vstep s o = Ok (s', r) /\ grows h s s' /\ entry s' id k = entry s id k.
Proof.
  intros L Ho. destruct o as [i|i k' v|i k'|i|i f|i|m|]; cbn [vstep local_ok] in *; try tauto.
  - do 2 eexists. split; [reflexivity|]. destruct (create_ok fl sidof s i (lo_w h s L)) as [W' HF].
    assert (HE : entry (vs_create s i) id k = entry s id k).
    { unfold entry. rewrite HF. replace (i =? id) with false by lia. auto. }
    split; auto. unfold grows. assert (H1 : ets (vs_create s i) = ets s) by (unfold ets; rewrite HE; auto).
    assert (H2 : qts (vs_create s i) = qts s) by reflexivity. splits; try lia; auto.
    constructor; auto; [|rewrite HE; apply L|apply (lo_q h s L)]. unfold exists_vs. rewrite HF. replace (i =? id) with false by lia. apply L.
  - destruct Ho as [Hk' Hd]. destruct (put_ok fl sidof s i k' v (lo_w h s L) Hk') as (s' & -> & HE). cbn [bind]. do 2 eexists. split; [reflexivity|].
    assert (HC : forall y put e, effect fl sidof s (Some (i, k', y)) (Some (put, i, k', e)) s' -> grows h s s' /\ entry s' id k = entry s id k).
    { intros y put e EF. split.
      - eapply effect_grows; eauto; [intros i2 k2 e2 Hx Hy; inversion Hx; subst; congruence|intros p i2 k2 e2 Hx Hy; inversion Hx; subst; congruence].
      - rewrite (ef_e _ _ _ _ _ _ EF id k Hk), Hd. auto. }
    destruct (vfind s i); [|subst; split; auto using grows_refl]. destruct (entry s i k'); [eapply HC; eauto|].
    destruct (is_nil v); [subst; split; auto using grows_refl|eapply HC; eauto].
  - destruct (get_ok fl sidof s i k' (lo_w h s L) Ho) as (s' & -> & HE). cbn [bind]. do 2 eexists. split; [reflexivity|].
    destruct (vfind s i) as [vs|] eqn:HV; [|subst; split; auto using grows_refl]. split; [|apply (ef_e _ _ _ _ _ _ HE id k Hk)].
    eapply effect_grows; eauto; [discriminate|]. intros p i2 k2 e2 Hx Hy. inversion Hx; subst. clear Hx.
    apply andb_true_iff in Hy as [Hi Hs]. assert (i2 = id) by lia. subst i2. rewrite (entry_cong fl sidof s id k2 k) by (auto; apply L).
    destruct (entry s id k) as [e|] eqn:Ee; [left; apply (lo_e h s L); auto|right; auto].
  - do 2 eexists. split; [reflexivity|]. split; auto using grows_refl.
  - do 2 eexists. split; [reflexivity|]. unfold vs_onconflict. destruct (vfind s i) as [vs|] eqn:HV; [|split; auto using grows_refl]. eapply mgr_grows; eauto.
  - do 2 eexists. split; [reflexivity|]. unfold vs_onconflictlost. destruct (vfind s i) as [vs|] eqn:HV; [|split; auto using grows_refl]. eapply mgr_grows; eauto.
Qed.

(** A write to the key by its only writer. *)
Lemma write_grows h s k' v : loc h s -> st_robot s = rw -> ets s = zlen h -> zlen h + 1 < 65536 -> P k' = true -> same_key k' k = true -> v <> ONil ->
  exists s' r, vstep s (VPut id k' v) = Ok (s', r) /\ grows (h ++ [v]) s s' /\ ets s' = zlen (h ++ [v]).
Proof.
  intros L Hr Hz Hb Hk' Hs Hv. cbn [vstep]. destruct (put_ok fl sidof s id k' v (lo_w h s L) Hk') as (s' & -> & HE). cbn [bind].
  do 2 eexists. split; [reflexivity|]. destruct (vfind s id) as [vs|] eqn:HV; [|destruct (lo_x h s L HV)].
  rewrite (entry_cong fl sidof s id k' k) in HE by (auto; apply L). apply is_nil_f in Hv as Hn. rewrite Hn in HE.
  assert (Eik : (id =? id) && same_key k' k = true) by (rewrite Hs, Z.eqb_refl; auto).
  assert (HA : zlen (h ++ [v]) = zlen h + 1) by (rewrite zlen_app; reflexivity). pose proof (zlen_nonneg h) as Hz0.
  assert (HC : forall y, ve_data y = v -> ve_ts y = zlen h + 1 -> ve_robot y = rw ->
     effect fl sidof s (Some (id, k', Some y)) (Some (true, id, k', y)) s' -> grows (h ++ [v]) s s' /\ ets s' = zlen (h ++ [v])).
  { intros y Hd Ht Hrb EF. assert (HO : okel (h ++ [v]) y).
    { unfold okel. rewrite Ht, Hd, HA. splits; auto; try lia. rewrite nth_error_app2 by (unfold zlen; lia).
      replace (Z.to_nat (zlen h + 1 - 1) - length h)%nat with 0%nat by (unfold zlen; lia). reflexivity. }
    split.
    - eapply effect_grows; eauto; [apply loc_app; auto| |].
      + intros i2 k2 e2 Hx Hy. inversion Hx; subst. exists y. splits; auto; [lia|eauto].
      + intros p i2 k2 e2 Hx Hy. inversion Hx; subst. auto.
    - unfold ets. rewrite (ef_e _ _ _ _ _ _ EF id k Hk), Eik. lia. }
  destruct (entry s id k) as [e|] eqn:Ee.
  - assert (Ht : ve_ts e = zlen h) by (unfold ets in Hz; rewrite Ee in Hz; auto).
    apply (HC _) in HE; auto. cbn. unfold wrap16. rewrite Ht. rewrite Z.mod_small; auto. change (2 ^ 16) with 65536. lia.
  - assert (Ht : 0 = zlen h) by (unfold ets in Hz; rewrite Ee in Hz; auto). apply (HC _) in HE; auto. cbn. lia.
Qed.

(** Sending. *)
Lemma pending_allv q m : o_bc q = [] /\ o_list q = [] /\ o_join q = [] /\ o_leave q = [] -> vinv fl sidof q ->
  In m (pending q) -> exists x, In x (allv q) /\ m = tomsg x.
Proof.
  intros (H1 & H2 & H3 & H4) V. unfold pending, allv. rewrite H1, H2, H3, H4. cbn [map app]. rewrite app_nil_r, in_app_iff, !in_map_iff.
  pose proof (vi_put _ _ q V) as VP. pose proof (vi_query _ _ q V) as VQ. rewrite Forall_forall in VP, VQ.
  intros [(x & <- & Hx)|(x & <- & Hx)]; exists x; (split; [apply in_app_iff; auto|]); unfold tomsg; [rewrite VP|rewrite VQ]; auto.
Qed.
Lemma tomsg_ok q x : vinv fl sidof q -> In x (allv q) -> vmsg_ok fl sidof (tomsg x).
Proof.
  intros V Hx. pose proof (ix_key _ _ _ _ (vi_ix _ _ q V) x Hx). unfold tomsg. destruct (v_put x); auto.
Qed.
Lemma about_carried m : about id k m = true -> mts m = ts_of m.
Proof. destruct m; cbn; try discriminate; unfold mts; cbn; intros ->; auto. Qed.
Lemma not_about_okm h m : about id k m = false -> okm h m.
Proof. destruct m; cbn; auto; intros H -> E; rewrite Z.eqb_refl, E in H; discriminate. Qed.
Lemma send_grows h s : loc h s -> exists s' l, vstep s VSend = Ok (s', RSent l) /\ loc h s' /\ entry s' id k = entry s id k /\ st_robot s' = st_robot s /\
  (forall m, In m l -> vmsg_ok fl sidof m /\ okm h m) /\
  (qts s' = qts s \/ exists m, In m l /\ mts m = qts s).
Proof.
  intros L. destruct (send_ok fl sidof s (lo_w h s L)) as (q & l & E & W' & HP & HL & HC). cbn [vstep]. rewrite E. cbn [bind].
  do 2 eexists. split; [reflexivity|]. pose proof (wi_q _ _ s (lo_w h s L)) as V.
  pose proof (pending_one fl sidof (st_out s) id k V Hk) as HF. rewrite HP, filter_app in HF. specialize (HC id k Hk).
  assert (HA : forall m, In m l -> about id k m = true -> cur_of (st_out s) id k = Some m).
  { intros m Hm Ha. unfold cur_of. assert (Hi : In m (filter (about id k) l)) by (apply filter_In; auto).
    destruct (find _ _) as [x|]; cbn [option_map].
    - assert (Hm1 : In m [tomsg x]) by (rewrite <- HF; apply in_app_iff; auto). destruct Hm1 as [-> |[]]. auto.
    - apply app_eq_nil in HF as [HF _]. rewrite HF in Hi. destruct Hi. }
  assert (HQ : cur_of q id k = None \/ cur_of q id k = cur_of (st_out s) id k) by (rewrite HC; destruct (existsb _ _); auto).
  split; [|split; [|split; [|split]]]; auto.
  - constructor; auto; [apply L|apply (lo_e h s L)|]. intros m. cbn [set_out st_out]. intro Hm. apply (lo_q h s L). destruct HQ as [HQ|HQ]; congruence.
  - intros m Hm. split.
    + destruct (pending_allv (st_out s) m (wi_o _ _ s (lo_w h s L)) V) as (x & Hx & ->); [rewrite HP; apply in_app_iff; auto|]. eapply tomsg_ok; eauto.
    + destruct (about id k m) eqn:Ea; [apply (lo_q h s L); auto|apply not_about_okm; auto].
  - unfold qts. cbn [set_out st_out]. destruct (existsb (about id k) l) eqn:Ex.
    + right. apply existsb_exists in Ex as (m & Hm & Ha). exists m. split; auto. rewrite (HA m Hm Ha). apply about_carried; auto.
    + left. rewrite HC. auto.
Qed.

(** ** The network *)
Variable links : nat -> nat -> bool.
Variable rid : nat -> Z.
Variable w : nat.
Hypothesis Hrw : rid w = rw.
Record ninv (h : list obj) (n : net) : Prop := {
  ni_l : forall i, loc h (n_st n i) /\ st_robot (n_st n i) = rid i;
  ni_b : forall i m, In m (n_box n i) -> vmsg_ok fl sidof m /\ okm h m;
  ni_w : ets (n_st n w) = zlen h;
  ni_c : forall i j, links i j = true -> ets (n_st n i) <= ets (n_st n j) \/ ets (n_st n i) <= qts (n_st n i) \/
            exists m, In m (n_box n j) /\ ets (n_st n i) <= mts m
}.
Lemma upd_same {A} (f : nat -> A) i x : upd_at f i x i = x.
Proof. unfold upd_at. rewrite Nat.eqb_refl. auto. Qed.
Lemma upd_other {A} (f : nat -> A) i x j : j <> i -> upd_at f i x j = f j.
Proof. unfold upd_at. intro H. apply Nat.eqb_neq in H. rewrite H. auto. Qed.

Lemma cover_grow h h' n i s' box' : ninv h n -> grows h' (n_st n i) s' ->
  (forall j m, In m (n_box n j) -> In m (box' j) \/ (j = i /\ mts m <= ets s')) ->
  forall a b, links a b = true ->
    let st := upd_at (n_st n) i s' in
    ets (st a) <= ets (st b) \/ ets (st a) <= qts (st a) \/ exists m, In m (box' b) /\ ets (st a) <= mts m.
Proof.
  intros NI (L' & G1 & G2 & G3 & G4) HB a b Hab st.
  assert (HE : ets (n_st n b) <= ets (st b)) by (unfold st, upd_at; destruct (Nat.eqb_spec b i); subst; lia).
  assert (HBb : forall z, (exists m, In m (n_box n b) /\ z <= mts m) -> z <= ets (st b) \/ exists m, In m (box' b) /\ z <= mts m).
  { intros z (m & Hm & Hz). destruct (HB b m Hm) as [Hm'|[-> Hm']]; [right; eauto|left]. unfold st. rewrite upd_same. lia. }
  pose proof (ets_bound h _ (proj1 (ni_l h n NI a))) as Ba.
  destruct (ni_c h n NI a b Hab) as [HC|[HC|HC]].
  - unfold st in *. destruct (Nat.eq_dec a i) as [-> |Ha].
    + rewrite upd_same. destruct (Z.eq_dec (ets (n_st n i)) (ets s')) as [Eq|Ne]; [left; lia|right; left; lia].
    + rewrite (upd_other _ _ _ a) by auto. left. lia.
  - unfold st in *. destruct (Nat.eq_dec a i) as [-> |Ha].
    + rewrite upd_same. destruct (Z.eq_dec (ets (n_st n i)) (ets s')) as [Eq|Ne]; [|right; left; lia].
      destruct G2 as [G2|G2]; [right; left; lia|left]. pose proof (ets_bound h _ (proj1 (ni_l h n NI b))). lia.
    + rewrite (upd_other _ _ _ a) by auto. right. left. lia.
  - apply HBb in HC. unfold st in *. destruct (Nat.eq_dec a i) as [-> |Ha].
    + rewrite upd_same. destruct (Z.eq_dec (ets (n_st n i)) (ets s')) as [Eq|Ne]; [|right; left; lia].
      destruct HC as [HC|(m & Hm & HC)]; [left; lia|right; right; exists m; split; auto; lia].
    + rewrite (upd_other _ _ _ a) by auto. destruct HC as [HC|HC]; auto.
Qed.
Lemma in_remove_nth {A} (l : list A) : forall n x y, nth_error l n = Some x -> In y l -> In y (remove_nth n l) \/ y = x.
Proof.
  induction l as [|a l IH]; intros [|n] x y Hn Hy; cbn in *; try discriminate; auto.
  - inversion Hn; subst. destruct Hy; auto.
  - destruct Hy as [-> |Hy]; auto. destruct (IH n x y Hn Hy); auto.
Qed.
Lemma remove_nth_in {A} (l : list A) : forall n y, In y (remove_nth n l) -> In y l.
Proof. induction l as [|a l IH]; intros [|n] y Hy; cbn in *; auto. destruct Hy as [-> |Hy]; eauto. Qed.

Lemma nstep_ok h n o : ninv h n -> nop_ok fl sidof id k w o -> zlen h + 1 < 65536 ->
  exists n', nstep links n o = Ok n' /\ ninv (h ++ written id k [o]) n'.
Proof.
  intros NI Ho Hz. destruct o as [i o|i|i c].
  - assert (HC : local_ok o \/ exists k' v, o = VPut id k' v /\ same_key k' k = true /\ i = w /\ v <> ONil /\ P k' = true).
    { destruct o; cbn in Ho |- *; auto; try tauto. destruct Ho as [H1 H2].
      destruct ((id0 =? id) && same_key k0 k) eqn:E; [|auto]. right. apply andb_true_iff in E as [E1 E2]. assert (id0 = id) by lia. subst. 
      destruct (H2 eq_refl E2). exists k0, v. auto. }
    destruct HC as [HL|(k' & v & -> & Hs & -> & Hv & Hk')].
    + assert (HW : written id k [NLocal i o] = []).
      { destruct o; auto. cbn in HL |- *. destruct HL as [_ ->]. auto. }
      rewrite HW, app_nil_r. cbn [nstep]. destruct (local_grows h (n_st n i) o (proj1 (ni_l h n NI i)) HL) as (s' & r & -> & HG & HE). cbn [bind].
      eexists. split; [reflexivity|]. constructor; cbn [n_st n_box].
      * intro j. unfold upd_at. destruct (Nat.eqb_spec j i); [subst|apply NI]. split; [apply HG|]. destruct HG as (_ & _ & _ & _ & ->). apply NI.
      * apply (ni_b h n NI).
      * rewrite <- (ni_w h n NI). unfold upd_at. destruct (Nat.eqb_spec w i) as [-> |]; auto. unfold ets. rewrite HE. auto.
      * intros a b Hab. eapply (cover_grow h h); eauto.
    + assert (HW : written id k [NLocal w (VPut id k' v)] = [v]) by (cbn; rewrite Z.eqb_refl, Hs; auto). rewrite HW. cbn [nstep].
      destruct (write_grows h (n_st n w) k' v (proj1 (ni_l h n NI w))) as (s' & r & -> & HG & HE); auto.
      { rewrite (proj2 (ni_l h n NI w)). auto. } { apply NI. }
      cbn [bind]. eexists. split; [reflexivity|]. constructor; cbn [n_st n_box].
      * intro j. unfold upd_at. destruct (Nat.eqb_spec j w); [subst|split; [apply loc_app|]; apply NI]. split; [apply HG|]. destruct HG as (_ & _ & _ & _ & ->). apply NI.
      * intros j m Hm. destruct (ni_b h n NI j m Hm). split; auto. apply okm_app; auto.
      * rewrite upd_same. auto.
      * intros a b Hab. eapply (cover_grow h (h ++ [v])); eauto.
  - change (written id k [NSend i]) with (@nil obj). rewrite app_nil_r. cbn [nstep].
    destruct (send_grows h (n_st n i) (proj1 (ni_l h n NI i))) as (s' & l & -> & L' & HE & HR & HL & HQ). cbn [bind].
    assert (HEs : ets s' = ets (n_st n i)) by (unfold ets; rewrite HE; auto).
    eexists. split; [reflexivity|]. constructor; cbn [n_st n_box].
    + intro j. unfold upd_at. destruct (Nat.eqb_spec j i); [subst|apply NI]. split; auto. rewrite HR. apply NI.
    + intros j m Hm. destruct (links i j); [|eapply NI; eauto]. apply in_app_iff in Hm as [Hm|Hm]; [eapply NI; eauto|auto].
    + rewrite <- (ni_w h n NI). unfold upd_at. destruct (Nat.eqb_spec w i) as [-> |]; auto.
    + intros a b Hab.
      assert (HSt : forall j, ets (upd_at (n_st n) i s' j) = ets (n_st n j)).
      { intro j. unfold upd_at. destruct (Nat.eqb_spec j i) as [-> |]; auto. }
      rewrite !HSt. assert (HBx : forall m, In m (n_box n b) -> In m (if links i b then n_box n b ++ l else n_box n b)).
      { intros m Hm. destruct (links i b); auto. apply in_app_iff. auto. }
      destruct (ni_c h n NI a b Hab) as [HC|[HC|(m & Hm & HC)]]; auto.
      * unfold upd_at. destruct (Nat.eqb_spec a i) as [-> |]; auto. destruct HQ as [HQ|(m & Hm & HQ)]; [right; left; lia|].
        right. right. exists m. rewrite Hab. split; [apply in_app_iff; auto|lia].
      * right. right. eauto.
  - change (written id k [NRecv i c]) with (@nil obj). rewrite app_nil_r. cbn [nstep].
    destruct (nth_error (n_box n i) c) as [m|] eqn:Em; [|eauto]. assert (Hmi : In m (n_box n i)) by (eapply nth_error_In; eauto).
    destruct (ni_b h n NI i m Hmi) as [Hm1 Hm2].
    destruct (recv_grows h (n_st n i) m (proj1 (ni_l h n NI i)) Hm1 Hm2) as (s' & ls & E & HG & HM & HW). cbn [vstep]. rewrite E. cbn [bind].
    eexists. split; [reflexivity|]. constructor; cbn [n_st n_box].
    + intro j. unfold upd_at. destruct (Nat.eqb_spec j i); [subst|apply NI]. split; [apply HG|]. destruct HG as (_ & _ & _ & _ & ->). apply NI.
    + intros j m' Hm'. unfold upd_at in Hm'. destruct (Nat.eqb_spec j i) as [-> |]; [|eapply NI; eauto]. apply remove_nth_in in Hm'. eapply NI; eauto.
    + rewrite <- (ni_w h n NI). unfold upd_at. destruct (Nat.eqb_spec w i) as [e|]; auto. rewrite e. unfold ets. rewrite HW; auto. rewrite <- e. apply (ni_w h n NI).
    + intros a b Hab. eapply (cover_grow h h); eauto. intros j m' Hm'. unfold upd_at. destruct (Nat.eqb_spec j i) as [-> |]; auto.
      destruct (in_remove_nth _ _ _ _ Em Hm') as [H| ->]; auto.
Qed.
Lemma written_cons o ops : written id k (o :: ops) = written id k [o] ++ written id k ops.
Proof. destruct o as [i o|i|i c]; auto. destruct o; auto. cbn. destruct (_ && _); auto. Qed.
Lemma nrun_ok ops : forall h n, ninv h n -> Forall (nop_ok fl sidof id k w) ops -> zlen h + zlen ops < 65536 ->
  exists n', nrun links n ops = Ok n' /\ ninv (h ++ written id k ops) n'.
Proof.
  induction ops as [|o ops IH]; intros h n NI HF Hz; cbn [nrun].
  - rewrite app_nil_r. eauto.
  - inversion HF; subst. assert (Hc : zlen (o :: ops) = 1 + zlen ops) by (unfold zlen; cbn [length]; lia). pose proof (zlen_nonneg ops).
    destruct (nstep_ok h n o NI) as (n1 & -> & NI1); auto; [lia|]. cbn [bind]. rewrite written_cons, app_assoc.
    apply IH; auto. rewrite zlen_app.
    assert (zlen (written id k [o]) <= 1); [|lia]. destruct o as [i o|i|i c]; try (cbn; lia). destruct o; try (cbn; lia).
    cbn. destruct (_ && _); cbn; lia.
Qed.
Lemma ninv_new : ninv [] (net_new rid id).
Proof.
  assert (HL : forall i, loc [] (n_st (net_new rid id) i) /\ entry (n_st (net_new rid id) i) id k = None).
  { intro i. cbn [net_new n_st]. destruct (create_ok fl sidof (vst_new (rid i)) id (winv_new fl sidof (rid i))) as [W HF].
    assert (HE : entry (vs_create (vst_new (rid i)) id) id k = None).
    { rewrite (entry_kget fl sidof) by auto. rewrite HF, Z.eqb_refl. cbn [vstig_new vs_data]. apply (get_new _ _ _ (good_k _ _ _ G)). lia. }
    split; auto. constructor; auto.
    - unfold exists_vs. rewrite HF, Z.eqb_refl. discriminate.
    - rewrite HE. discriminate.
    - intros m. discriminate. }
  constructor.
  - intro i. split; [apply HL|reflexivity].
  - intros i m [].
  - unfold ets. rewrite (proj2 (HL w)). reflexivity.
  - intros i j _. left. unfold ets. rewrite (proj2 (HL i)), (proj2 (HL j)). lia.
Qed.
Lemma quiet_ets h n : ninv h n -> quiet n -> forall i j, hears links i j -> ets (n_st n i) <= ets (n_st n j).
Proof.
  intros NI HQ i j HH. induction HH as [|i j l HH IH Hl]; [lia|].
  assert (Hq : qts (n_st n j) = 0).
  { destruct (HQ j) as [_ Hj]. pose proof (lo_w h _ (proj1 (ni_l h n NI j))) as W. pose proof (oinv_of fl sidof _ W) as I.
    destruct (next_ok fl sidof 0 (st_out (n_st n j)) I) as (q' & _ & _ & HM).
    assert (HP : pending (st_out (n_st n j)) = []) by (destruct (pending (st_out (n_st n j))); auto; destruct HM; congruence).
    pose proof (pending_one fl sidof (st_out (n_st n j)) id k (wi_q _ _ _ W) Hk) as HF. rewrite HP in HF. cbn in HF.
    unfold qts, cur_of. destruct (find _ _); [discriminate|auto]. }
  pose proof (ets_bound h _ (proj1 (ni_l h n NI l))) as Bl.
  destruct (ni_c h n NI j l Hl) as [HC|[HC|(m & Hm & _)]]; try lia. destruct (HQ l) as [-> _] in Hm. destruct Hm.
Qed.
Lemma quiet_last h n j : ninv h n -> quiet n -> hears links w j ->
  match entry (n_st n j) id k with Some e => ve_data e | None => ONil end = last h ONil.
Proof.
  intros NI HQ HH. pose proof (quiet_ets h n NI HQ w j HH) as H1. rewrite (ni_w h n NI) in H1.
  pose proof (proj1 (ni_l h n NI j)) as L. pose proof (ets_bound h _ L) as B. assert (H2 : ets (n_st n j) = zlen h) by lia.
  unfold ets in H2. destruct (entry (n_st n j) id k) as [e|] eqn:Ee.
  - destruct (lo_e h _ L e Ee) as (A1 & A2 & A3 & _). assert (HN : h <> []) by (intros ->; cbn in *; lia).
    destruct (exists_last HN) as (h' & x & ->). rewrite last_last. rewrite H2 in A3.
    rewrite zlen_app in A3. change (zlen [x]) with 1 in A3. rewrite nth_error_app2 in A3 by (unfold zlen; lia).
    replace (Z.to_nat (zlen h' + 1 - 1) - length h')%nat with 0%nat in A3 by (unfold zlen; lia). cbn in A3. congruence.
  - destruct h as [|x h']; auto. unfold zlen in H2. cbn [length] in H2. lia.
Qed.
End N.
