(** Receiving messages: which entry wins. *)
From Verif Require Import Base ListLemmas Dict DictSpec PDict DictProofs PDictKeys Strman Obj ObjSpec ObjProofs OutMsg OutMsgSpec OutMsgProofs OutMsgRun
  Vstig VstigSpec VstigProofs.

Lemma is_nil_iff o : is_nil o = true <-> o = ONil.
Proof. destruct o; split; intro; try discriminate; auto. Qed.
Lemma is_nil_f o : is_nil o = false <-> o <> ONil.
Proof. rewrite <- is_nil_iff. destruct (is_nil o); split; congruence. Qed.
Ltac nils := repeat match goal with H : is_nil _ = true |- _ => apply is_nil_iff in H | H : is_nil _ = false |- _ => apply is_nil_f in H end.
Lemma beats_trans a b c : beats a b -> beats b c -> beats a c.
Proof.
  unfold beats. intros [H1|[H1 [[H2 H3]|[H2 H3]]]] [K1|[K1 [[K2 K3]|[K2 K3]]]]; try (left; lia); right; split; try lia.
  - left. split; auto.
  - left. split; auto. apply K2. auto.
  - left. split; auto. intro Ha. apply K2. apply H2. auto.
  - right. split; [tauto|lia].
Qed.
Lemma beats_irrefl a : ~ beats a a.
Proof. unfold beats. intros [H|[_ [[H K]|[_ H]]]]; try lia. auto. Qed.

Section V.
Variables (fl : bool) (sidof : str -> Z).
Notation P := (vkey_class fl sidof).
Notation winv := (winv fl sidof).
Let G := good_vclass fl sidof.

(** Default resolution. *)
Lemma resolve_default vs k l v : vs_oc vs = None -> ve_robot l <> ve_robot v -> ve_ts l = ve_ts v ->
  (beats v l /\ resolve vs k l v = Some v) \/ (beats l v /\ resolve vs k l v = Some l).
Proof.
  intros Ho Hr Ht. unfold resolve. rewrite Ho.
  destruct (is_nil (ve_data l)) eqn:El, (is_nil (ve_data v)) eqn:Ev; cbn [andb orb negb];
    nils; unfold beats.
  - destruct (ve_robot l >? ve_robot v) eqn:E; [right|left]; split; auto; right; split; auto; right; split; try tauto; lia.
  - left. split; auto.
  - right. split; auto.
  - destruct (ve_robot l >? ve_robot v) eqn:E; [right|left]; split; auto; right; split; auto; right; split; try tauto; lia.
Qed.

(** The effect of one message on the entry of one key. *)
Lemma vrecv_entry s m id k : winv s -> vmsg_ok fl sidof m -> P k = true ->
  exists s' ls, vrecv s m = Ok (s', ls) /\ winv s' /\
    (forall i, option_map vs_oc (vfind s' i) = option_map vs_oc (vfind s i)) /\ st_robot s' = st_robot s /\
    entry s' id k = match vfind s id, carried id k m with
                    | Some vs, Some v =>
                        match judge vs (match m with MPut _ k' _ | MQuery _ k' _ => k' | _ => k end) (entry s id k)
                                    (match m with MPut _ _ _ => true | _ => false end) v with
                        | Accept e => Some e
                        | _ => entry s id k
                        end
                    | _, _ => entry s id k
                    end.
Proof.
  intros W Hm Hk.
  assert (HR : forall put i k' v, P k' = true -> exists s' ls, recv s put i k' v = Ok (s', ls) /\ winv s' /\
     (forall i, option_map vs_oc (vfind s' i) = option_map vs_oc (vfind s i)) /\ st_robot s' = st_robot s /\
     entry s' id k = match vfind s id, (if (i =? id) && same_key k' k then Some v else None) with
                     | Some vs, Some v => match judge vs k' (entry s id k) put v with Accept e => Some e | _ => entry s id k end
                     | _, _ => entry s id k end).
  { intros put i k' v Hk'. destruct (recv_ok fl sidof s put i k' v W Hk') as (s' & ls & E & HE). exists s', ls. split; auto.
    destruct (vfind s i) as [vs|] eqn:HV.
    - destruct ((i =? id) && same_key k' k) eqn:EK.
      + pose proof EK as EK'. apply andb_true_iff in EK' as [Ei Es]. assert (i = id) by lia. subst i. rewrite HV. rewrite (entry_cong fl sidof s id k' k) in HE by auto.
        destruct (judge vs k' (entry s id k) put v); cbn in HE.
        * subst. auto.
        * destruct HE as [? ? ? ? HE ?]. splits; auto. rewrite HE by auto. rewrite EK. auto.
        * destruct HE as [? ? ? ? HE ?]. splits; auto.
      + destruct (judge vs k' (entry s i k') put v); cbn in HE.
        * subst s'. splits; auto. destruct (vfind s id); auto.
        * destruct HE as [? ? ? ? HE ?]. splits; auto. rewrite HE by auto. rewrite EK. destruct (vfind s id); auto.
        * destruct HE as [? ? ? ? HE ?]. splits; auto. rewrite HE by auto. destruct (vfind s id); auto.
    - assert (HN : match vfind s id with Some vs => match (if (i =? id) && same_key k' k then Some v else None) with Some v0 => match judge vs k' (entry s id k) put v0 with Accept e => Some e | _ => entry s id k end | None => entry s id k end | None => entry s id k end = entry s id k).
      { destruct (i =? id) eqn:Ei; cbn [andb]; [assert (i = id) by lia; subst; rewrite HV; auto|destruct (vfind s id); auto]. }
      rewrite HN. destruct put; [subst; auto|]. destruct HE as [? ? ? ? HE ?]. splits; auto. }
  destruct m; cbn [vrecv carried]; try (exists s, []; splits; auto; destruct (vfind s id); auto; fail).
  - apply (HR true); auto.
  - apply (HR false); auto.
Qed.

(** Default manager: the winner. *)
Definition better (l : option velem) (v : velem) (e' : option velem) : Prop :=
  match l with
  | None => e' = Some v
  | Some l => (e' = Some v /\ beats v l) \/ (e' = Some l /\ ~ beats v l)
  end.
Definition ident (a b : velem) : Prop := ve_ts a = ve_ts b -> ve_robot a = ve_robot b -> ve_data a = ve_data b.
Lemma judge_better vs k x put v : vs_oc vs = None -> put = true \/ ve_data v <> ONil -> (forall l, x = Some l -> ident l v) ->
  better x v (match judge vs k x put v with Accept e => Some e | _ => x end).
Proof.
  intros Ho Hp HI. unfold judge, better. destruct x as [l|].
  - specialize (HI l eq_refl). destruct (ve_ts l <? ve_ts v) eqn:E1; [left; split; auto; unfold beats; lia|].
    destruct ((ve_ts l =? ve_ts v) && negb (ve_robot l =? ve_robot v)) eqn:E2.
    + destruct (resolve_default vs k l v Ho) as [[HB ->]|[HB ->]]; try lia; [left; auto|right]. split; auto.
      intro HB'. apply (beats_irrefl l). eapply beats_trans; eauto.
    + right. split.
      * destruct (negb put && (ve_ts l >? ve_ts v)); auto.
      * unfold beats, ident in *. intros [H|[H [[H2 H3]|[H2 H3]]]]; try lia.
        rewrite HI in H3 by lia. auto.
  - assert (Hb : put || negb (is_nil (ve_data v)) = true).
    { destruct Hp as [-> |Hp]; auto. apply is_nil_f in Hp. rewrite Hp. apply orb_true_r. }
    rewrite Hb. auto.
Qed.

(** The entries known about a key after receiving messages. *)
Definition known (id : Z) (k : obj) (x : option velem) (ms : list omsg) (e : velem) : Prop :=
  x = Some e \/ exists m, In m ms /\ carried id k m = Some e.
Lemma default_oc s s' id : (forall i, option_map vs_oc (vfind s' i) = option_map vs_oc (vfind s i)) -> default_mgr s id -> default_mgr s' id.
Proof.
  intros HO HD vs HV. specialize (HO id). rewrite HV in HO. destruct (vfind s id) as [vs0|] eqn:E; [|discriminate].
  cbn in HO. assert (vs_oc vs = vs_oc vs0) as -> by congruence. auto.
Qed.
Lemma exists_oc s s' id : (forall i, option_map vs_oc (vfind s' i) = option_map vs_oc (vfind s i)) -> exists_vs s id -> exists_vs s' id.
Proof. unfold exists_vs. intros HO HE. specialize (HO id). destruct (vfind s' id), (vfind s id); cbn in HO; congruence. Qed.
Lemma carried_upd id k m v : carried id k m = Some v -> update_msg m ->
  (match m with MPut _ _ _ => true | _ => false end) = true \/ ve_data v <> ONil.
Proof. destruct m; cbn; try discriminate; auto. destruct (_ && _); [|discriminate]. intro E; inversion E; subst. auto. Qed.

Lemma receive_best ms : forall s id k s' outs, winv s -> P k = true -> Forall (vmsg_ok fl sidof) ms -> Forall update_msg ms ->
  exists_vs s id -> default_mgr s id ->
  (forall a b, known id k (entry s id k) ms a -> known id k (entry s id k) ms b -> ident a b) ->
  receive_all s ms = Ok (s', outs) ->
  match entry s' id k with
  | Some e => known id k (entry s id k) ms e /\ (forall b, known id k (entry s id k) ms b -> ~ beats b e)
  | None => forall b, ~ known id k (entry s id k) ms b
  end.
Proof.
  induction ms as [|m ms IH]; intros s id k s' outs W Hk HF HU HX HD HI HE.
  - cbn in HE. inversion HE; subst. destruct (entry s' id k) as [e|].
    + split; [left; auto|]. intros b [Hb|(m & [] & _)]. inversion Hb; subst. apply beats_irrefl.
    + intros b [Hb|(m & [] & _)]; discriminate.
  - inversion HF as [|? ? Hm HF']; subst. inversion HU as [|? ? Hu HU']; subst.
    unfold receive_all in HE. cbn [map vrun vstep] in HE.
    destruct (vrecv_entry s m id k W Hm Hk) as (s1 & ls & E1 & W1 & HO & _ & HEn). rewrite E1 in HE. cbn [bind] in HE.
    apply bind_ok in HE as ([s2 rs] & E2 & HE). inversion HE; subst.
    assert (HB : match carried id k m with
                 | Some v => better (entry s id k) v (entry s1 id k)
                 | None => entry s1 id k = entry s id k end).
    { unfold exists_vs in HX. destruct (vfind s id) as [vs|] eqn:EV; [|congruence]. destruct (carried id k m) as [v|] eqn:EC; auto.
      rewrite HEn. apply judge_better; [apply HD; auto|eapply carried_upd; eauto|]. intros l El. apply HI; [left; auto|].
      right. exists m. split; [left|]; auto. }
    assert (HK : forall e, known id k (entry s1 id k) ms e -> known id k (entry s id k) (m :: ms) e).
    { intros e [He|(m' & Hm' & He)]; [|right; exists m'; split; [right|]; auto].
      destruct (carried id k m) as [v|] eqn:EC; [|left; congruence]. unfold better in HB.
      assert (HC : entry s1 id k = Some v -> known id k (entry s id k) (m :: ms) e).
      { intro Hv. rewrite Hv in He. inversion He; subst. right. exists m. split; [left|]; auto. }
      destruct (entry s id k) as [l|] eqn:El; auto. destruct HB as [[HB _]|[HB _]]; auto. left. congruence. }
    specialize (IH s1 id k s' rs W1 Hk HF' HU' (exists_oc _ _ _ HO HX) (default_oc _ _ _ HO HD)).
    specialize (IH ltac:(auto) E2).
    destruct (entry s' id k) as [e|] eqn:Ee.
    + destruct IH as [IK IB]. split; auto. intros b Hb.
      assert (HT : forall c, entry s1 id k = Some c -> ~ beats c e) by (intros c Hc; apply IB; left; auto).
      destruct Hb as [Hb|(m' & [<- |Hm'] & Hb)].
      * destruct (carried id k m) as [v|] eqn:EC; [|apply HT; congruence]. unfold better in HB. rewrite Hb in HB.
        destruct HB as [[HB HBv]|[HB HBv]]; [|apply HT; auto]. intro Hbe. apply (HT v HB). eapply beats_trans; eauto.
      * rewrite Hb in HB. unfold better in HB. destruct (entry s id k) as [l|] eqn:El; [|apply HT; auto].
        destruct HB as [[HB HBv]|[HB HBv]]; [apply HT; auto|].
        intro Hbe. specialize (HT l HB).
        (* b does not beat l, b beats e, l does not beat e *)
        assert (HIb : ident l b) by (apply HI; [left; auto|right; exists m; split; [left; auto|auto]]).
        assert (HIe : ident l e) by (apply HI; [left; auto|apply HK; auto]).
        assert (HIbe : ident b e) by (apply HI; [right; exists m; split; [left; auto|auto]|apply HK; auto]).
        destruct (Z.eq_dec (ve_ts l) (ve_ts b)) as [Et|Et]; [destruct (Z.eq_dec (ve_robot l) (ve_robot b)) as [Er|Er]|].
        -- apply HT. unfold beats in *. rewrite Et, Er, HIb; auto.
        -- assert (HL : beats l b).
           { unfold beats in *. destruct (is_nil (ve_data l)) eqn:N1, (is_nil (ve_data b)) eqn:N2; nils.
             - right. split; auto. right. split; [tauto|]. destruct (Z.lt_ge_cases (ve_robot b) (ve_robot l)); auto. exfalso. apply HBv. right. split; auto. right. split; [tauto|lia].
             - exfalso. apply HBv. right. split; auto.
             - right. split; auto.
             - right. split; auto. right. split; [tauto|]. destruct (Z.lt_ge_cases (ve_robot b) (ve_robot l)); auto. exfalso. apply HBv. right. split; auto. right. split; [tauto|lia]. }
           apply HT. eapply beats_trans; eauto.
        -- assert (HL : beats l b) by (unfold beats in *; left; destruct (Z.lt_ge_cases (ve_ts b) (ve_ts l)); auto; exfalso; apply HBv; left; lia).
           apply HT. eapply beats_trans; eauto.
      * apply IB. right. eauto.
    + intros b Hb. destruct Hb as [Hb|(m' & [<- |Hm'] & Hb)].
      * destruct (carried id k m) as [v|] eqn:EC.
        -- unfold better in HB. rewrite Hb in HB. destruct HB as [[HB _]|[HB _]]; eapply IH; left; eauto.
        -- eapply IH. left. rewrite HB. eauto.
      * rewrite Hb in HB. unfold better in HB. destruct (entry s id k) as [l|].
        -- destruct HB as [[HB _]|[HB _]]; eapply IH; left; eauto.
        -- eapply IH. left. eauto.
      * eapply IH. right. eauto.
Qed.

(** Two winners are the same. *)
Lemma best_unique a b : ident a b -> ~ beats a b -> ~ beats b a -> a = b.
Proof.
  intros HI H1 H2. unfold beats, ident in *.
  assert (Ht : ve_ts a = ve_ts b) by lia.
  assert (Hn : ve_data a = ONil <-> ve_data b = ONil).
  { destruct (is_nil (ve_data a)) eqn:N1, (is_nil (ve_data b)) eqn:N2; nils; try tauto.
    exfalso; apply H2; right; split; auto. }
  assert (Hr : ve_robot a = ve_robot b).
  { destruct (Z.lt_trichotomy (ve_robot a) (ve_robot b)) as [H|[H|H]]; auto; exfalso; [apply H2|apply H1]; right; split; auto; right; tauto. }
  destruct a, b; cbn in *. subst. f_equal. auto.
Qed.

(** Timestamps never decrease. *)
Lemma judge_ts vs k l put v e : judge vs k (Some l) put v = Accept e ->
  (ve_ts l < ve_ts v /\ e = v) \/ (ve_ts l = ve_ts v /\ ve_robot l <> ve_robot v /\ resolve vs k l v = Some e /\ ve_ts e = ve_ts l).
Proof.
  unfold judge. destruct (ve_ts l <? ve_ts v) eqn:E1; [intro H; inversion H; subst; left; split; auto; lia|].
  destruct ((ve_ts l =? ve_ts v) && negb (ve_robot l =? ve_robot v)) eqn:E2; [|destruct (negb put && _); discriminate].
  destruct (resolve vs k l v) as [c|] eqn:E; [|discriminate]. intro H; inversion H; subst. right. splits; auto; try lia.
  unfold resolve in E. destruct (vs_oc vs) as [f|].
  - destruct (f k l v) as [[d r]|]; [|discriminate]. inversion E; subst. auto.
  - assert (Ht : ve_ts l = ve_ts v) by lia.
    assert (E' : e = l \/ e = v) by (revert E; repeat match goal with |- (if ?b then _ else _) = _ -> _ => destruct b end; intro E; inversion E; auto).
    destruct E' as [-> | ->]; auto.
Qed.
Lemma receive_mono ms : forall s id k s' outs e, winv s -> P k = true -> Forall (vmsg_ok fl sidof) ms ->
  receive_all s ms = Ok (s', outs) -> entry s id k = Some e -> exists e', entry s' id k = Some e' /\ ve_ts e <= ve_ts e'.
Proof.
  induction ms as [|m ms IH]; intros s id k s' outs e W Hk HF HE He; unfold receive_all in HE; cbn [map vrun vstep] in HE.
  - inversion HE; subst. exists e. split; auto. lia.
  - inversion HF as [|? ? Hm HF']; subst. destruct (vrecv_entry s m id k W Hm Hk) as (s1 & ls & E1 & W1 & HO & _ & HEn).
    rewrite E1 in HE. cbn [bind] in HE. apply bind_ok in HE as ([s2 rs] & E2 & HE). inversion HE; subst.
    assert (HX : exists e1, entry s1 id k = Some e1 /\ ve_ts e <= ve_ts e1).
    { rewrite He in HEn. rewrite HEn. clear HEn. destruct (vfind s id) as [vs|]; [|exists e; split; auto; lia].
      destruct (carried id k m) as [v|]; [|exists e; split; auto; lia].
      destruct (judge _ _ _ _ _) as [|e1|] eqn:EJ; [exists e; split; auto; lia| |exists e; split; auto; lia].
      exists e1. split; auto. apply judge_ts in EJ as [[H1 ->]|(H2 & _ & _ & H)]; [lia|rewrite H; lia]. }
    destruct HX as (e1 & He1 & H1). destruct (IH s1 id k s' rs e1 W1 Hk HF' E2 He1) as (e' & He' & H2). exists e'. split; auto. lia.
Qed.
End V.
