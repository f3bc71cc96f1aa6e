From Verif Require Import Base ListLemmas Dict DictSpec PDict DictProofs PDictKeys Strman Obj ObjSpec ObjProofs OutMsg OutMsgSpec OutMsgProofs OutMsgRun
  Vstig VstigSpec VstigProofs Swarm SwarmSpec SwarmProofs Robot RobotSpec.

Section Rel.
Variables (fl : bool) (sidof : str -> Z) (u : Z).
Hypothesis Hu : 0 <= u < 65536.
Notation P := (vkey_class fl sidof).
Notation oinv := (oinv fl sidof u).
Notation ook := (oop_ok fl sidof u).

(** The queue changes by operations on queues, and what is sent is what they send. *)
Definition queue (q q' : oq) (sent : list omsg) : Prop := exists oo outs, Forall ook oo /\ oq_run q oo = Ok (q', outs) /\ concat outs = sent.
Lemma queue_none q : queue q q []. Proof. exists [], []. auto. Qed.
Lemma queue_one q o q' l : ook o -> oq_step q o = Ok (q', l) -> queue q q' l.
Proof. intros H E. exists [o], [l]. split; [auto|]. split; [cbn [oq_run]; rewrite E; reflexivity|]. cbn. apply app_nil_r. Qed.
Lemma queue_app q q1 q2 l1 l2 : queue q q1 l1 -> queue q1 q2 l2 -> queue q q2 (l1 ++ l2).
Proof.
  intros (o1 & r1 & A1 & A2 & A3) (o2 & r2 & B1 & B2 & B3). exists (o1 ++ o2), (r1 ++ r2). split; [apply Forall_app; auto|]. split; [rewrite (oq_run_app _ _ _ _ A2), B2; reflexivity|].
  rewrite concat_app. congruence.
Qed.
Lemma queue_silent q q1 q2 : queue q q1 [] -> queue q1 q2 [] -> queue q q2 [].
Proof. apply queue_app. Qed.

(** [s'] has the stigmergies of [s], and a queue of its own. *)
Definition rel (s s' : vstate) : Prop := st_robot s' = st_robot s /\ st_vstigs s' = st_vstigs s /\ oinv (st_out s').
Definition follows (s1 s' s1' : vstate) : Prop := rel s1 s1' /\ queue (st_out s') (st_out s1') [].
Lemma follows_trans s1 s' s1' s2 s2' : follows s1 s' s1' -> follows s2 s1' s2' -> follows s2 s' s2'.
Proof. intros [_ A] [R B]. split; [exact R|]. eapply queue_silent; eauto. Qed.
Lemma rel_find s s' id : rel s s' -> vfind s' id = vfind s id. Proof. intros (_ & E & _). unfold vfind. rewrite E. reflexivity. Qed.
Lemma rel_upd s s' id vs : rel s s' -> follows (vupd s id vs) s' (vupd s' id vs).
Proof. intros (A & B & C). split; [|apply queue_none]. split; [exact A|]. split; [|exact C]. cbn. rewrite B. reflexivity. Qed.
Lemma rel_say s s' put id k e s1 : rel s s' -> P k = true -> vsay s put id k e = Ok s1 -> exists s1', vsay s' put id k e = Ok s1' /\ follows s1 s' s1'.
Proof.
  intros (A & B & V & S) Hk E. unfold vsay in *. apply bind_ok in E as (q & _ & E). inversion E; subst.
  destruct (append_vstig_ok fl sidof (st_out s') put id k e V Hk) as (q' & E' & V' & E1 & E2 & E3 & E4 & _). rewrite E'. cbn [bind]. eexists. split; [reflexivity|].
  split; [split; [exact A|split; [exact B|split; [exact V'|eapply sinv_ext; eauto]]]|]. apply (queue_one _ (OVstig put id k e)); [exact Hk|]. cbn [oq_step set_out st_out]. rewrite E'. reflexivity.
Qed.
Lemma rel_store s s' id vs k e s1 : rel s s' -> vstore s id vs k e = Ok s1 -> exists s1', vstore s' id vs k e = Ok s1' /\ follows s1 s' s1'.
Proof. intros R E. unfold vstore in *. destruct (rset _ _ _ _ _); cbn [bind] in *; inversion E; subst. eexists. split; [reflexivity|]. apply rel_upd. exact R. Qed.
Lemma rel_remove s s' id vs k s1 : rel s s' -> vremove s id vs k = Ok s1 -> exists s1', vremove s' id vs k = Ok s1' /\ follows s1 s' s1'.
Proof. intros R E. unfold vremove in *. destruct (rremove _ _ _ _); cbn [bind] in *; inversion E; subst. eexists. split; [reflexivity|]. apply rel_upd. exact R. Qed.
Lemma rel_overwrite s s' id vs k e s1 : rel s s' -> voverwrite s id vs k e = Ok s1 -> exists s1', voverwrite s' id vs k e = Ok s1' /\ follows s1 s' s1'.
Proof.
  intros R E. unfold voverwrite in *. destruct (rslot _ _ _); cbn [bind] in *; try discriminate. destruct (rupd _ _ _); cbn [bind] in *; inversion E; subst. eexists. split; [reflexivity|]. apply rel_upd. exact R.
Qed.
Lemma rel_refl s s' : rel s s' -> follows s s' s'. Proof. intro R. split; [exact R|apply queue_none]. Qed.
(** One after the other. *)
Lemma two {B} (f f' : res vstate) (g g' : vstate -> res (vstate * B)) s' s2 (r : B) :
  ('(s1) <- f ;; g s1) = Ok (s2, r) -> (forall s1, f = Ok s1 -> exists s1', f' = Ok s1' /\ follows s1 s' s1') ->
  (forall s1 s1', rel s1 s1' -> g s1 = Ok (s2, r) -> exists s2', g' s1' = Ok (s2', r) /\ follows s2 s1' s2') ->
  exists s2', ('(s1) <- f' ;; g' s1) = Ok (s2', r) /\ follows s2 s' s2'.
Proof.
  intros E HF HG. apply bind_ok in E as (s1 & E1 & E2). destruct (HF s1 E1) as (s1' & F1 & F2). destruct (HG s1 s1' (proj1 F2) E2) as (s2' & G1 & G2).
  exists s2'. rewrite F1. cbn [bind]. split; [exact G1|]. eapply follows_trans; eauto.
Qed.
Lemma two' (f f' : res vstate) (g g' : vstate -> res vstate) s' s2 :
  (s1 <- f ;; g s1) = Ok s2 -> (forall s1, f = Ok s1 -> exists s1', f' = Ok s1' /\ follows s1 s' s1') ->
  (forall s1 s1', rel s1 s1' -> g s1 = Ok s2 -> exists s2', g' s1' = Ok s2' /\ follows s2 s1' s2') ->
  exists s2', (s1 <- f' ;; g' s1) = Ok s2' /\ follows s2 s' s2'.
Proof.
  intros E HF HG. apply bind_ok in E as (s1 & E1 & E2). destruct (HF s1 E1) as (s1' & F1 & F2). destruct (HG s1 s1' (proj1 F2) E2) as (s2' & G1 & G2).
  exists s2'. rewrite F1. cbn [bind]. split; [exact G1|]. eapply follows_trans; eauto.
Qed.
Lemma rel_put s s' id k v s1 : rel s s' -> P k = true -> vs_put s id k v = Ok s1 -> exists s1', vs_put s' id k v = Ok s1' /\ follows s1 s' s1'.
Proof.
  intros R Hk E. unfold vs_put in *. rewrite (rel_find s s' id R). rewrite (proj1 R). destruct (vfind s id) as [vs|]; [|inversion E; subst; eexists; split; [reflexivity|apply rel_refl; exact R]].
  destruct (vfetch vs k) as [x| | |]; cbn [bind] in *; try discriminate. destruct x as [e|]; destruct (negb (is_nil v)).
  - eapply two'; [exact E| |]; [intros; eapply rel_overwrite; eauto|]. intros; eapply rel_say; eauto.
  - eapply two'; [exact E| |]; [intros; eapply rel_say; eauto|]. intros; eapply rel_remove; eauto.
  - eapply two'; [exact E| |]; [intros; eapply rel_store; eauto|]. intros; eapply rel_say; eauto.
  - inversion E; subst. eexists; split; [reflexivity|apply rel_refl; exact R].
Qed.
Lemma rel_get s s' id k s1 o : rel s s' -> P k = true -> vs_get s id k = Ok (s1, o) -> exists s1', vs_get s' id k = Ok (s1', o) /\ follows s1 s' s1'.
Proof.
  intros R Hk E. unfold vs_get in *. rewrite (rel_find s s' id R). rewrite (proj1 R). destruct (vfind s id) as [vs|]; [|inversion E; subst; eexists; split; [reflexivity|apply rel_refl; exact R]].
  destruct (vfetch vs k) as [x| | |]; cbn [bind] in *; try discriminate.
  destruct x as [e|]; (eapply two; [exact E|intros; eapply rel_say; eauto|]); intros a a' Ra Ea; inversion Ea; subst; eexists; (split; [reflexivity|apply rel_refl; exact Ra]).
Qed.
Lemma done_rel {B} s1 s1' s2 (l r : B) : rel s1 s1' -> Ok (s1, l) = Ok (s2, r) -> exists s2', Ok (s1', l) = Ok (s2', r) /\ follows s2 s1' s2'.
Proof. intros R E. inversion E; subst. eexists. split; [reflexivity|apply rel_refl; exact R]. Qed.
Lemma rel_accept s s' id vs k v (ll : list lost) s2 r : rel s s' -> P k = true -> (s1 <- vstore s id vs k v ;; s2 <- vsay s1 true id k v ;; Ok (s2, ll)) = Ok (s2, r) ->
  exists s2', (s1 <- vstore s' id vs k v ;; s2 <- vsay s1 true id k v ;; Ok (s2, ll)) = Ok (s2', r) /\ follows s2 s' s2'.
Proof.
  intros R Hk E. eapply two; [exact E|intros; eapply rel_store; eauto|]. cbv beta. intros a a' Ra Ea. eapply two; [exact Ea|intros; eapply rel_say; eauto|]. cbv beta. intros b b' Rb Eb. eapply done_rel; eauto.
Qed.
Lemma rel_tell s s' put id k v (ll : list lost) s2 r : rel s s' -> P k = true -> (s1 <- vsay s put id k v ;; Ok (s1, ll)) = Ok (s2, r) ->
  exists s2', (s1 <- vsay s' put id k v ;; Ok (s1, ll)) = Ok (s2', r) /\ follows s2 s' s2'.
Proof. intros R Hk E. eapply two; [exact E|intros; eapply rel_say; eauto|]. cbv beta. intros b b' Rb Eb. eapply done_rel; eauto. Qed.
Lemma rel_conflict s s' id vs k l v s2 r : rel s s' -> P k = true -> vconflict s id vs k l v = Ok (s2, r) -> exists s2', vconflict s' id vs k l v = Ok (s2', r) /\ follows s2 s' s2'.
Proof.
  intros R Hk E. unfold vconflict in *. rewrite (proj1 R). destruct (resolve vs k l v) as [c|]; [|eapply done_rel; eauto]. eapply rel_accept; eauto.
Qed.
Lemma rel_recv s s' m s2 r : rel s s' -> vmsg_ok fl sidof m -> vrecv s m = Ok (s2, r) -> exists s2', vrecv s' m = Ok (s2', r) /\ follows s2 s' s2'.
Proof.
  intros R Hm E. destruct m as [| |id k v|id k v| |]; cbn [vrecv vmsg_ok] in *; try (eapply done_rel; eauto; fail).
  - unfold recv_put in *. rewrite (rel_find s s' id R). destruct (vfind s id) as [vs|]; [|eapply done_rel; eauto]. destruct (vfetch vs k) as [x| | |]; cbn [bind] in *; try discriminate.
    destruct x as [l|]; [|eapply rel_accept; eauto]. destruct (ve_ts l <? ve_ts v); [eapply rel_accept; eauto|]. destruct (_ && _); [eapply rel_conflict; eauto|eapply done_rel; eauto].
  - unfold recv_query in *. rewrite (rel_find s s' id R). destruct (vfind s id) as [vs|]; [|eapply rel_tell; eauto]. destruct (vfetch vs k) as [x| | |]; cbn [bind] in *; try discriminate.
    destruct x as [l|]; [|destruct (is_nil (ve_data v)); [eapply rel_tell; eauto|eapply rel_accept; eauto]]. destruct (ve_ts l <? ve_ts v); [eapply rel_accept; eauto|]. destruct (ve_ts l >? ve_ts v); [eapply rel_tell; eauto|].
    destruct (_ && _); [eapply rel_conflict; eauto|eapply done_rel; eauto].
Qed.
Lemma rel_step s s' o s1 r : rel s s' -> vop_ok fl sidof o -> vstep s o = Ok (s1, r) ->
  exists s1' r', vstep s' o = Ok (s1', r') /\ rel s1 s1' /\ returns r' = returns r /\ queue (st_out s') (st_out s1') (sent_by (RV r')).
Proof.
  intros R Ho E.
  assert (HF : forall r, (forall l, r <> RSent l) -> (exists s1', vstep s' o = Ok (s1', r) /\ follows s1 s' s1') -> exists s1' r', vstep s' o = Ok (s1', r') /\ rel s1 s1' /\ returns r' = returns r /\ queue (st_out s') (st_out s1') (sent_by (RV r'))).
  { intros r0 Hr (s1' & E1 & F1 & F2). exists s1', r0. split; [exact E1|]. split; [exact F1|]. split; [reflexivity|]. destruct r0; try exact F2. destruct (Hr l); reflexivity. }
  destruct o as [id|id k v|id k|id|id f|id|m|]; cbn [vstep vop_ok] in *.
  - inversion E; subst. apply HF; [discriminate|]. eexists. split; [reflexivity|]. split; [|apply queue_none]. destruct R as (A & B & C). unfold vs_create, vfind. split; [exact A|]. split; [|exact C]. cbn [st_vstigs]. rewrite B. reflexivity.
  - apply bind_ok in E as (s2 & E2 & E). inversion E; subst. apply HF; [discriminate|]. destruct (rel_put s s' id k v s1 R Ho E2) as (s1' & G1 & G2). exists s1'. rewrite G1. auto.
  - apply bind_ok in E as ([s2 o] & E2 & E). inversion E; subst. apply HF; [discriminate|]. destruct (rel_get s s' id k s1 o R Ho E2) as (s1' & G1 & G2). exists s1'. rewrite G1. auto.
  - inversion E; subst. apply HF; [discriminate|]. exists s'. unfold vs_size. rewrite (rel_find s1 s' id R). split; [reflexivity|apply rel_refl; exact R].
  - inversion E; subst. apply HF; [discriminate|]. eexists. split; [reflexivity|]. unfold vs_onconflict. rewrite (rel_find s s' id R). destruct (vfind s id); [apply rel_upd; exact R|apply rel_refl; exact R].
  - inversion E; subst. apply HF; [discriminate|]. eexists. split; [reflexivity|]. unfold vs_onconflictlost. rewrite (rel_find s s' id R). destruct (vfind s id); [apply rel_upd; exact R|apply rel_refl; exact R].
  - apply bind_ok in E as ([s2 l] & E2 & E). inversion E; subst. apply HF; [discriminate|]. destruct (rel_recv s s' m s1 l R Ho E2) as (s1' & G1 & G2). exists s1'. rewrite G1. auto.
  - apply bind_ok in E as ([q l] & E2 & E). inversion E; subst. destruct R as (A & B & C). destruct (step_ok fl sidof u Hu (st_out s') OSend C Logic.I) as (q' & l' & E' & I'). cbn [vstep]. rewrite E'. cbn [bind].
    exists (set_out s' q'), (RSent l'). split; [reflexivity|]. split; [split; [exact A|split; [exact B|exact I']]|]. split; [reflexivity|]. cbn [sent_by set_out st_out]. exact (queue_one _ OSend _ _ Logic.I E').
Qed.

(** The same for swarms. *)
Definition srel (s s' : swst) : Prop := sw_own s' = sw_own s /\ oinv (sw_out s').
Definition sfollows (s1 s' s1' : swst) : Prop := srel s1 s1' /\ queue (sw_out s') (sw_out s1') [].
Lemma srel_get s s' id : srel s s' -> sw_get s' id = sw_get s id. Proof. intros [E _]. unfold sw_get. rewrite E. reflexivity. Qed.
Lemma srel_check s s' id : srel s s' -> swarm_check s' id = swarm_check s id. Proof. intros R. unfold swarm_check. rewrite (srel_get s s' _ R). reflexivity. Qed.
Lemma srel_set s s' id v : srel s s' -> srel (sw_set s id v) (sw_set s' id v). Proof. intros [A B]. split; [cbn; rewrite A; reflexivity|exact B]. Qed.
Lemma srel_refl s s' : srel s s' -> sfollows s s' s'. Proof. intro R. split; [exact R|apply queue_none]. Qed.
Lemma srel_tell s s' join id s1 : srel s s' -> swid_ok u id -> sw_announce s join id = Ok s1 -> exists s1', sw_announce s' join id = Ok s1' /\ sfollows s1 s' s1'.
Proof.
  intros (A & V & S) Hid E. unfold sw_announce in *. apply bind_ok in E as (q & _ & E). inversion E; subst.
  destruct (joinleave_ok u Hu (sw_out s') join id S Hid) as (l & j & v & E' & S' & _). rewrite E'. cbn [bind]. eexists. split; [reflexivity|].
  split; [split; [exact A|split; [eapply vinv_ext; eauto|exact S']]|]. apply (queue_one _ (if join then OJoin id else OLeave id)); [destruct join; exact Hid|]. destruct join; cbn [oq_step sw_out]; rewrite E'; reflexivity.
Qed.
Lemma srel_op (r : res swst) (r' : res swst) s' s1 (x y : sres) : (s2 <- r ;; Ok (s2, x)) = Ok (s1, y) -> (forall s1, r = Ok s1 -> exists s1', r' = Ok s1' /\ sfollows s1 s' s1') ->
  exists s1', (s2 <- r' ;; Ok (s2, x)) = Ok (s1', y) /\ sfollows s1 s' s1'.
Proof. intros E H. apply bind_ok in E as (s2 & E1 & E). injection E as -> ->. destruct (H s1 E1) as (s1' & F1 & F2). exists s1'. rewrite F1. auto. Qed.
Lemma sdone s s' s1 (r r1 : sres) : srel s s' -> Ok (s, r) = Ok (s1, r1) -> exists s1', Ok (s', r) = Ok (s1', r1) /\ sfollows s1 s' s1'.
Proof. intros R E. inversion E; subst. eexists. split; [reflexivity|apply srel_refl; exact R]. Qed.
Lemma srel_set_tell s s' id v join s1 : srel s s' -> swid_ok u id -> sw_announce (sw_set s id v) join id = Ok s1 -> exists s1', sw_announce (sw_set s' id v) join id = Ok s1' /\ sfollows s1 s' s1'.
Proof. intros R H E. destruct (srel_tell _ _ join id s1 (srel_set s s' id v R) H E) as (s1' & A & B). exists s1'. split; [exact A|exact B]. Qed.
Lemma srel_setop f s s' id a b s1 r : srel s s' -> swid_ok u id -> swarm_setop f s id a b = Ok (s1, r) -> exists s1', swarm_setop f s' id a b = Ok (s1', r) /\ sfollows s1 s' s1'.
Proof.
  intros R Hid E. unfold swarm_setop in *. cbv zeta in *. rewrite !(srel_check s s' _ R). rewrite wrap16_ok in * by apply Hid. eapply srel_op; [exact E|]. intros s2 E2. destruct (f _ _); [eapply srel_set_tell; eauto|].
  inversion E2; subst. eexists. split; [reflexivity|]. split; [apply srel_set; exact R|apply queue_none].
Qed.
Lemma lift (r r' : res (swst * sres)) s' s1 x (ms : list omsg) : ('(s, y) <- r ;; Ok (s, y, [])) = Ok (s1, x, ms) -> (r = Ok (s1, x) -> exists s1', r' = Ok (s1', x) /\ sfollows s1 s' s1') ->
  exists s1' ms', ('(s, y) <- r' ;; Ok (s, y, [])) = Ok (s1', x, ms') /\ srel s1 s1' /\ queue (sw_out s') (sw_out s1') ms'.
Proof.
  intros E H. apply bind_ok in E as ([s2 y] & E1 & E). injection E as -> -> <-. destruct (H E1) as (s1' & F1 & F2 & F3). exists s1', []. rewrite F1. auto.
Qed.
Lemma srel_step s m s' o s1 r ms : swinv u s m -> srel s s' -> swop_ok u o -> sw_step s o = Ok (s1, r, ms) ->
  exists s1' ms', sw_step s' o = Ok (s1', r, ms') /\ srel s1 s1' /\ queue (sw_out s') (sw_out s1') ms'.
Proof.
  intros I R Ho E. destruct o as [id|id|id|id c|id|a b|id a b|id a b|id a b| |]; cbn [sw_step swop_ok] in *.
  - eapply lift; [exact E|]. clear E. intro E. unfold swarm_create in *. cbv zeta in *. rewrite (srel_get s s' _ R). destruct (sw_get s _); [eapply sdone; eauto|]. inversion E; subst. eexists. split; [reflexivity|].
    split; [apply srel_set; exact R|apply queue_none].
  - eapply lift; [exact E|]. clear E. intro E. unfold swarm_join in *. cbv zeta in *. rewrite (srel_get s s' _ R). rewrite wrap16_ok in * by apply Ho. destruct (sw_get s _); [|eapply sdone; eauto]. eapply srel_op; [exact E|]. intros; eapply srel_set_tell; eauto.
  - eapply lift; [exact E|]. clear E. intro E. unfold swarm_leave in *. cbv zeta in *. rewrite (srel_get s s' _ R). rewrite wrap16_ok in * by apply Ho. destruct (sw_get s _); [|eapply sdone; eauto]. eapply srel_op; [exact E|]. intros; eapply srel_set_tell; eauto.
  - destruct Ho as [Ho Hc]. eapply lift; [exact E|]. clear E. intro E. unfold swarm_select in *. cbv zeta in *. rewrite (srel_get s s' _ R). rewrite wrap16_ok in * by apply Ho. destruct (sw_get s _); [|eapply sdone; eauto]. eapply srel_op; [exact E|]. intros; eapply srel_set_tell; eauto.
  - eapply lift; [exact E|]. clear E. intro E. unfold swarm_in in *. rewrite (srel_get s s' _ R). destruct (sw_get s _); eapply sdone; eauto.
  - destruct Ho as [Ha Hb]. eapply lift; [exact E|]. clear E. intro E. unfold swarm_others in *. cbv zeta in *. rewrite (srel_get s s' _ R). rewrite !wrap16_ok in * by (apply Ha || apply Hb). destruct (sw_get s _) as [x|]; [|eapply sdone; eauto].
    eapply srel_op; [exact E|]. intros s2 E2. destruct ((if x =? 0 then 1 else 0) =? 0) in E2 |- *.
    2: { eapply srel_set_tell; eauto. } + inversion E2; subst. eexists. split; [reflexivity|]. split; [apply srel_set; exact R|apply queue_none].
  - eapply lift; [exact E|]. intro E1. eapply srel_setop; eauto. apply Ho.
  - eapply lift; [exact E|]. intro E1. eapply srel_setop; eauto. apply Ho.
  - eapply lift; [exact E|]. intro E1. eapply srel_setop; eauto. apply Ho.
  - apply bind_ok in E as (q & E1 & E). inversion E; subst. destruct R as [A B]. destruct (step_ok fl sidof u Hu (sw_out s') OSend B Logic.I) as (q' & l' & E' & I').
    pose proof E' as E''. cbn [oq_step] in E'. apply bind_ok in E' as (q2 & E2 & E3). injection E3 as -> <-. rewrite E2. cbn [bind]. eexists. eexists. split; [reflexivity|]. split; [split; [exact A|exact I']|]. exact (queue_one _ OSend _ _ Logic.I E'').
  - inversion E; subst. destruct R as [A B]. rewrite A. eexists. exists []. split; [reflexivity|]. destruct (psize (sw_own s) =? 0); [split; [split; [exact A|exact B]|apply queue_none]|].
    assert (Hok : ook (OList (sw_own s))). { split; [apply I|]. apply nodupk_map. apply (SwarmProofs.wi_wf u s m I). }
    split; [split; [reflexivity|]|]. + cbn [sw_out]. destruct (step_ok fl sidof u Hu _ (OList (sw_own s)) B Hok) as (q & l & E1 & E2). cbn [oq_step] in E1. injection E1 as <- _. exact E2. + cbn [sw_out]. apply (queue_one _ (OList (sw_own s))); [exact Hok|reflexivity].
Qed.

(** A mixed history, beside its two parts. *)
Lemma mixed ops : forall x s w m, Forall (hop_ok fl sidof u) ops -> winv fl sidof s -> swinv u w m -> rel s (h_vst x) -> srel w (h_sw x) ->
  exists x' rs s' vs w' ws ms, hrun x ops = Ok (x', rs) /\ vrun s (stigmergy_part ops) = Ok (s', vs) /\ sw_run w (swarm_part ops) = Ok (w', ws, ms) /\
    rel s' (h_vst x') /\ srel w' (h_sw x') /\ stigmergy_results rs = map returns vs /\ swarm_results rs = ws /\ queue (h_out x) (h_out x') (flat_map sent_by rs).
Proof.
  induction ops as [|o ops IH]; intros x s w m HF Ws Ww R1 R2.
  - exists x, [], s, [], w, [], []. repeat (split; [auto; fail|]). apply queue_none.
  - inversion HF as [|? ? H1 H2]; subst. destruct o as [o|o|t v]; cbn [hop_ok hrun hstep] in *.
    + destruct (vstep_ok fl sidof s o Ws H1) as (s1 & r & E & Ws1). destruct (rel_step s (h_vst x) o s1 r R1 H1 E) as (s1' & r' & E' & R1' & Hr & HQ). rewrite E'. cbn [bind].
      destruct (IH (h_put_vst x s1') s1 w m H2 Ws1 Ww) as (x' & rs & s2 & vs & w2 & ws & ms & A1 & A2 & A3 & A4 & A5 & A6 & A7 & A8).
      { destruct s1'; exact R1'. } { destruct R2 as [Q1 Q2]. split; [exact Q1|]. exact (proj2 (proj2 R1')). }
      rewrite A1. cbn [bind]. exists x', (RV r' :: rs), s2, (r :: vs), w2, ws, ms. split; [reflexivity|]. split; [cbn; rewrite E; cbn [bind]; fold (stigmergy_part ops); rewrite A2; reflexivity|].
      split; [exact A3|]. split; [exact A4|]. split; [exact A5|]. split; [cbn; rewrite Hr; f_equal; exact A6|]. split; [exact A7|]. cbn [flat_map]. eapply queue_app; [exact HQ|exact A8].
    + destruct (swinv_step u Hu w m o Ww H1) as (w1 & r & ms & oo & outs & E & Ww1 & _). destruct (srel_step w m (h_sw x) o w1 r ms Ww R2 H1 E) as (w1' & ms' & E' & R2' & HQ). rewrite E'. cbn [bind].
      destruct (IH (h_put_sw x w1') s w1 _ H2 Ws Ww1) as (x' & rs & s2 & vs & w2 & ws & ms2 & A1 & A2 & A3 & A4 & A5 & A6 & A7 & A8).
      { destruct R1 as (Q1 & Q2 & Q3). split; [exact Q1|]. split; [exact Q2|]. exact (proj2 R2'). } { destruct w1'; exact R2'. }
      rewrite A1. cbn [bind]. exists x', (RS r ms' :: rs), s2, vs, w2, (r :: ws), (ms ++ ms2). split; [reflexivity|]. split; [exact A2|]. split; [cbn; rewrite E; cbn [bind]; fold (swarm_part ops); rewrite A3; reflexivity|].
      split; [exact A4|]. split; [exact A5|]. split; [exact A6|]. split; [cbn; f_equal; exact A7|]. cbn [flat_map]. eapply queue_app; [exact HQ|exact A8].
    + destruct (step_ok fl sidof u Hu (h_out x) (OBroadcast t v) (proj2 R2) Logic.I) as (q & l & E & I'). pose proof E as E''. cbn [oq_step] in E. injection E as <- <-. cbn [bind].
      match goal with |- context [hrun ?y ops] => destruct (IH y s w m H2 Ws Ww) as (x' & rs & s2 & vs & w2 & ws & ms2 & A1 & A2 & A3 & A4 & A5 & A6 & A7 & A8) end.
      { destruct R1 as (Q1 & Q2 & Q3). split; [exact Q1|]. split; [exact Q2|exact I']. } { split; [exact (proj1 R2)|exact I']. }
      rewrite A1. cbn [bind]. exists x', (RB :: rs), s2, vs, w2, ws, ms2. repeat (split; [auto; fail|]). cbn [flat_map sent_by]. eapply queue_app; [|exact A8]. apply (queue_one _ (OBroadcast t v)); [exact Logic.I|exact E''].
Qed.
Lemma mixed_new robot ops : Forall (hop_ok fl sidof u) ops ->
  exists x rs s vs w ws ms, hrun (h_new robot) ops = Ok (x, rs) /\ vrun (vst_new robot) (stigmergy_part ops) = Ok (s, vs) /\ sw_run sw_new (swarm_part ops) = Ok (w, ws, ms) /\
    rel s (h_vst x) /\ srel w (h_sw x) /\ stigmergy_results rs = map returns vs /\ swarm_results rs = ws /\ queue oq_new (h_out x) (flat_map sent_by rs).
Proof.
  intro HF. apply (mixed ops (h_new robot) (vst_new robot) sw_new (fun _ => None) HF).
  - apply winv_new. - apply swinv_new. - split; [reflexivity|]. split; [reflexivity|apply oinv_new]. - split; [reflexivity|apply oinv_new].
Qed.
End Rel.
