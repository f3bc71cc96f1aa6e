From Verif Require Import Base ListLemmas Dict DictSpec PDict DictProofs PDictKeys Strman Obj OutMsg OutMsgSpec OutMsgProofs Swarm SwarmSpec.

(** ** Applying a function to all the values of a dictionary *)
Section MapV.
Context {K V : Type}.
Variables (hashf : K -> Z) (keycmpf : K -> K -> Z) (eqb : K -> K -> bool).
Variable f : V -> V.
Let g (e : K * V) := (fst e, f (snd e)).
Lemma mapv_entries (p : pdict K V) : pentries (map (map g) p) = map g (pentries p).
Proof. unfold pentries. symmetry. apply concat_map. Qed.
Lemma mapv_slot (p : pdict K V) k : pslot hashf (map (map g) p) k = pslot hashf p k.
Proof. unfold pslot. rewrite zlen_map. reflexivity. Qed.
Lemma mapv_wf (p : pdict K V) : PWf hashf eqb p -> PWf hashf eqb (map (map g) p).
Proof.
  intros (H1 & H2 & H3). split; [destruct p; cbn; congruence|]. split.
  - rewrite mapv_entries. revert H2. generalize (pentries p). induction l as [|e l IH]; cbn; auto. intros [Ha Hb]. split; auto.
    intros e' He. apply in_map_iff in He as (x & <- & Hx). cbn. auto.
  - intros i b Hb. rewrite nth_error_map in Hb. destruct (nth_error p i) as [b0|] eqn:E; [|discriminate]. inversion Hb; subst.
    apply H3 in E. rewrite Forall_map. eapply Forall_impl; [|exact E]. intros e He. cbn. rewrite mapv_slot. auto.
Qed.
Lemma mapv_get (p : pdict K V) k : pget hashf keycmpf (map (map g) p) k = option_map f (pget hashf keycmpf p k).
Proof.
  unfold pget, pbucket. rewrite mapv_slot. change (@nil (K * V)) with (map g (@nil (K * V))) at 1. rewrite map_nth.
  induction (nth (pslot hashf p k) p []) as [|e l IH]; auto. cbn. destruct (_ =? 0); auto.
Qed.
End MapV.

Lemma removes_get {V} (l : list Z) : forall (p : pdict Z V) k, PWf uintkeyhash Z.eqb p ->
  PWf uintkeyhash Z.eqb (fold_left (premove uintkeyhash intkeycmp) l p) /\
  pget uintkeyhash intkeycmp (fold_left (premove uintkeyhash intkeycmp) l p) k =
    if existsb (Z.eqb k) l then None else pget uintkeyhash intkeycmp p k.
Proof.
  induction l as [|x l IH]; intros p k H; cbn [fold_left existsb]; auto.
  destruct (IH (premove uintkeyhash intkeycmp p x) k) as [A B]; [apply (wf_remove _ _ _ good_u); auto|]. split; auto.
  rewrite B, (get_remove _ _ _ good_u) by auto. rewrite (Z.eqb_sym k x). destruct (x =? k), (existsb (Z.eqb k) l); auto.
Qed.

Notation mwf := (PWf uintkeyhash Z.eqb).
Lemma update_get (m : members) r : mwf m -> (forall k e, mb_get m k = Some e -> 0 <= se_age e <= 50) ->
  mwf (mb_update m) /\
  mb_get (mb_update m) r = match mb_get m r with
                           | Some e => if se_age e + 1 >? 50 then None else Some {| se_swarms := se_swarms e; se_age := se_age e + 1 |}
                           | None => None
                           end.
Proof.
  intros H HA. unfold mb_update. set (m1 := map (map (fun e => (fst e, aged (snd e)))) m).
  assert (H1 : mwf m1) by (apply mapv_wf; auto). set (l := rev _).
  destruct (removes_get l m1 r H1) as [A B]. split; auto. unfold mb_get in *. rewrite B.
  assert (E1 : pget uintkeyhash intkeycmp m1 r = option_map aged (pget uintkeyhash intkeycmp m r)) by apply mapv_get.
  rewrite E1.
  assert (EL : existsb (Z.eqb r) l = match pget uintkeyhash intkeycmp m1 r with Some e => se_age e >? MEMBERSHIP_AGE_MAX | None => false end).
  { destruct (pget uintkeyhash intkeycmp m1 r) as [e|] eqn:E.
    - assert (Hin : In (r, e) (pentries m1)).
      { apply (get_in _ _ _ good_u) in E as (k' & Hk & He); auto. assert (r = k') by lia. subst; auto. }
      destruct (se_age e >? MEMBERSHIP_AGE_MAX) eqn:Ea.
      + apply existsb_eqb. apply -> in_rev. apply in_map_iff. exists (r, e). split; auto. apply filter_In. auto.
      + apply existsb_eqb_f. intro Hc. apply in_rev in Hc. apply in_map_iff in Hc as ([k' e'] & Hk & Hc). cbn in Hk. subst k'.
        apply filter_In in Hc as [Hc Hc2]. cbn in Hc2. assert (pget uintkeyhash intkeycmp m1 r = Some e').
        { apply (get_in _ _ _ good_u); auto. exists r. split; auto. lia. }
        assert (e' = e) by congruence. subst. congruence.
    - apply existsb_eqb_f. intro Hc. apply in_rev in Hc. apply in_map_iff in Hc as ([k' e'] & Hk & Hc). cbn in Hk. subst k'.
      apply filter_In in Hc as [Hc _]. rewrite (get_none _ _ _ good_u) in E by auto. specialize (E _ Hc). cbn in E. lia. }
  rewrite EL, E1. destruct (pget uintkeyhash intkeycmp m r) as [e|] eqn:E; cbn; auto.
  pose proof (HA r e E). unfold aged. cbn [se_age]. unfold wrap16. rewrite Z.mod_small by (change (2 ^ 16) with 65536; lia).
  unfold MEMBERSHIP_AGE_MAX. destruct (_ >? 50); auto.
Qed.

(** ** The table of members follows the view of each robot *)
Record minv (m : members) (vw : Z -> view) : Prop := {
  mi_wf : mwf m;
  mi_some : forall r e, mb_get m r = Some e ->
     NoDup (se_swarms e) /\ (forall s, existsb (Z.eqb s) (se_swarms e) = fst (vw r) s) /\ se_age e = snd (vw r) /\ 0 <= se_age e <= 50;
  mi_none : forall r, mb_get m r = None -> forall s, fst (vw r) s = false
}.
Lemma minv_new : minv mb_new (fun _ => (fun _ => false, 0)).
Proof.
  constructor; auto.
  - apply (wf_new _ _ _ good_u). lia.
  - intros r e H. unfold mb_get, mb_new in H. rewrite (get_new _ _ _ good_u) in H by lia. discriminate.
Qed.
Lemma minv_step m vw e : minv m vw -> mev_ok e -> minv (mb_step m e) (fun r => view_step r (vw r) e).
Proof.
  intros I He. pose proof (mi_wf _ _ I) as W. destruct e as [r0 msg|]; cbn [mb_step].
  - (* a helper: the entry of r0 becomes e', that of the others is unchanged *)
    assert (HG : forall m' v', mwf m' -> (forall r, r <> r0 -> mb_get m' r = mb_get m r) ->
      match mb_get m' r0 with
      | Some e => NoDup (se_swarms e) /\ (forall s, existsb (Z.eqb s) (se_swarms e) = fst v' s) /\ se_age e = snd v' /\ 0 <= se_age e <= 50
      | None => forall s, fst v' s = false
      end -> view_step r0 (vw r0) (EMsg r0 msg) = v' -> minv m' (fun r => view_step r (vw r) (EMsg r0 msg))).
    { intros m' v' W' Ho H0 Hv. constructor; auto.
      - intros r e E. destruct (Z.eq_dec r r0) as [-> | Hn].
        + rewrite E in H0. rewrite Hv. auto.
        + cbn [view_step]. destruct (r0 =? r) eqn:Er; [lia|]. rewrite Ho in E by auto. apply (mi_some _ _ I); auto.
      - intros r E. destruct (Z.eq_dec r r0) as [-> | Hn].
        + rewrite E in H0. rewrite Hv. auto.
        + cbn [view_step]. destruct (r0 =? r) eqn:Er; [lia|]. rewrite Ho in E by auto. apply (mi_none _ _ I); auto. }
    assert (HI : view_step r0 (vw r0) (EMsg r0 msg) = vw r0 -> minv m (fun r => view_step r (vw r) (EMsg r0 msg))).
    { intro Hv. apply (HG m (vw r0)); auto. destruct (mb_get m r0) as [e|] eqn:E; [apply (mi_some _ _ I); auto|apply (mi_none _ _ I); auto]. }
    destruct msg as [t v|l|id k d|id k d|s|s]; cbn [mb_receive]; try (apply HI; cbn; rewrite Z.eqb_refl; reflexivity).
    + (* list *)
      destruct l as [|x l]; [apply HI; cbn; rewrite Z.eqb_refl; reflexivity|]. cbn [mev_ok] in He.
      unfold mb_refresh. apply (HG _ (fun s => existsb (Z.eqb s) (x :: l), 0)).
      * destruct (mb_get m r0); [apply (wf_modify _ _ _ good_u)|apply (wf_set _ _ _ good_u)]; auto.
      * intros r Hn. unfold mb_get. destruct (pget _ _ m r0); [rewrite (get_modify _ _ _ good_u)|rewrite (get_set _ _ _ good_u)]; auto;
          (destruct (r0 =? r) eqn:Er; [lia|auto]).
      * unfold mb_get. destruct (pget uintkeyhash intkeycmp m r0) as [e|] eqn:E.
        -- rewrite (get_modify _ _ _ good_u), Z.eqb_refl, E by auto. cbn [option_map se_swarms se_age fst snd]. splits; auto; lia.
        -- rewrite (get_set _ _ _ good_u), Z.eqb_refl by auto. cbn [se_swarms se_age fst snd]. splits; auto; lia.
      * cbn [view_step]. rewrite Z.eqb_refl. reflexivity.
    + (* join *)
      unfold mb_join. apply (HG _ (fun s' => (s' =? s) || fst (vw r0) s', 0)).
      * destruct (mb_get m r0); [apply (wf_modify _ _ _ good_u)|apply (wf_set _ _ _ good_u)]; auto.
      * intros r Hn. unfold mb_get. destruct (pget _ _ m r0); [rewrite (get_modify _ _ _ good_u)|rewrite (get_set _ _ _ good_u)]; auto;
          (destruct (r0 =? r) eqn:Er; [lia|auto]).
      * unfold mb_get. destruct (pget uintkeyhash intkeycmp m r0) as [e|] eqn:E.
        -- rewrite (get_modify _ _ _ good_u), Z.eqb_refl, E by auto. cbn [option_map se_swarms se_age fst snd].
           destruct (mi_some _ _ I r0 e E) as (HN & HS & HA & HB). splits; auto; try lia.
           ++ destruct (existsb (Z.eqb s) (se_swarms e)) eqn:Ex; auto. apply NoDup_snoc; auto. apply existsb_eqb_f; auto.
           ++ intro s'. rewrite <- HS. destruct (existsb (Z.eqb s) (se_swarms e)) eqn:Ex.
              ** destruct (s' =? s) eqn:Es; auto. assert (s' = s) by lia. subst. rewrite Ex. auto.
              ** rewrite existsb_app. cbn. rewrite orb_false_r. apply orb_comm.
        -- rewrite (get_set _ _ _ good_u), Z.eqb_refl by auto. cbn [se_swarms se_age fst snd]. splits; auto; try lia.
           ++ constructor; auto. constructor.
           ++ intro s'. cbn. rewrite (mi_none _ _ I r0 E). auto.
      * cbn [view_step]. rewrite Z.eqb_refl. reflexivity.
    + (* leave *)
      unfold mb_leave. destruct (mb_get m r0) as [e|] eqn:E.
      * destruct (mi_some _ _ I r0 e E) as (HN & HS & HA & HB).
        set (l := from_swarm_queue (se_swarms e) s).
        assert (Hl : NoDup l) by (eapply subseq_nodup; [apply from_sub|auto]).
        assert (Hm : forall s', existsb (Z.eqb s') l = negb (s' =? s) && fst (vw r0) s').
        { intro s'. rewrite <- HS. destruct (existsb (Z.eqb s') l) eqn:Ex.
          - apply existsb_eqb in Ex. apply from_in in Ex as [Hx Hne]; auto. apply existsb_eqb in Hx. rewrite Hx.
            destruct (s' =? s) eqn:Es; [lia|auto].
          - apply existsb_eqb_f in Ex. destruct (existsb (Z.eqb s') (se_swarms e)) eqn:Ey; [|rewrite andb_false_r; auto].
            apply existsb_eqb in Ey. destruct (s' =? s) eqn:Es; auto. exfalso. apply Ex. apply from_in; auto. split; auto. lia. }
        set (m1 := pmodify uintkeyhash intkeycmp m r0 (fun _ => {| se_swarms := l; se_age := 0 |})).
        assert (W1 : mwf m1) by (apply (wf_modify _ _ _ good_u); auto).
        assert (G1 : forall r, mb_get m1 r = if r0 =? r then Some {| se_swarms := l; se_age := 0 |} else mb_get m r).
        { intro r. unfold mb_get, m1. rewrite (get_modify _ _ _ good_u) by auto. destruct (r0 =? r) eqn:Er; auto.
          assert (r0 = r) by lia. subst r. unfold mb_get in E. rewrite E. reflexivity. }
        apply (HG _ (fun s' => negb (s' =? s) && fst (vw r0) s', 0)).
        -- destruct l; auto. apply (wf_remove _ _ _ good_u). auto.
        -- intros r Hn. destruct l; unfold mb_get in *; rewrite ?(get_remove _ _ _ good_u), ?G1 by auto; destruct (r0 =? r) eqn:Er; auto; lia.
        -- destruct l as [|x l']; unfold mb_get in *; rewrite ?(get_remove _ _ _ good_u), ?G1, ?Z.eqb_refl by auto.
           ++ intro s'. cbn [fst]. rewrite <- Hm. reflexivity.
           ++ cbn [se_swarms se_age fst snd]. splits; auto; lia.
        -- cbn [view_step]. rewrite Z.eqb_refl. reflexivity.
      * apply (HG _ (fun s' => negb (s' =? s) && fst (vw r0) s', 0)); auto.
        -- rewrite E. intro s'. cbn [fst]. rewrite (mi_none _ _ I r0 E). apply andb_false_r.
        -- cbn [view_step]. rewrite Z.eqb_refl. reflexivity.
  - assert (HA : forall k e, mb_get m k = Some e -> 0 <= se_age e <= 50) by (intros k e E; apply (mi_some _ _ I k e E)).
    constructor.
    + apply (update_get m 0 W HA).
    + intros r e E. rewrite (proj2 (update_get m r W HA)) in E. destruct (mb_get m r) as [e0|] eqn:E0; [|discriminate].
      destruct (mi_some _ _ I r e0 E0) as (HN & HS & HG & HB). cbn [view_step]. rewrite <- HG. destruct (_ >? 50) eqn:Eg; [discriminate|].
      inversion E; subst. cbn [se_swarms se_age fst snd]. splits; auto; lia.
    + intros r E s. rewrite (proj2 (update_get m r W HA)) in E. cbn [view_step]. destruct (mb_get m r) as [e0|] eqn:E0.
      * destruct (mi_some _ _ I r e0 E0) as (HN & HS & HG & HB). rewrite <- HG. destruct (_ >? 50) eqn:Eg; [auto|discriminate].
      * destruct (_ >? 50); cbn [fst]; auto. apply (mi_none _ _ I); auto.
Qed.
Lemma members_follow es : Forall mev_ok es -> forall m vw, minv m vw ->
  minv (mb_run m es) (fun r => fold_left (view_step r) es (vw r)).
Proof.
  induction es as [|e es IH]; intros HF m vw I; auto. inversion HF; subst. cbn [fold_left]. unfold mb_run. cbn [fold_left].
  apply (IH H2 _ (fun r => view_step r (vw r) e)). apply minv_step; auto.
Qed.
Lemma isrobotin_view m vw r s : minv m vw -> mb_isrobotin m r s = fst (vw r) s.
Proof.
  intro I. unfold mb_isrobotin. destruct (mb_get m r) as [e|] eqn:E.
  - apply (mi_some _ _ I r e E).
  - rewrite (mi_none _ _ I r E). reflexivity.
Qed.
