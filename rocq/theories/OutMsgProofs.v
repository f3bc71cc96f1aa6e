From Verif Require Import Base ListLemmas Dict DictSpec PDict DictProofs PDictKeys Strman Obj ObjSpec ObjProofs OutMsg OutMsgSpec.

(** ** Lists *)
Lemma subseq_refl {A} (l : list A) : subseq l l.
Proof. induction l; [constructor|apply ss_keep; auto]. Qed.
Lemma subseq_trans {A} (b c : list A) : subseq b c -> forall a, subseq a b -> subseq a c.
Proof.
  induction 1; intros a' Ha; auto.
  - constructor; auto.
  - inversion Ha; subst; [apply ss_skip|apply ss_keep]; auto.
Qed.
Lemma subseq_app {A} (a b c d : list A) : subseq a b -> subseq c d -> subseq (a ++ c) (b ++ d).
Proof. induction 1; cbn; intro; auto; [apply ss_skip|apply ss_keep]; auto. Qed.
Lemma subseq_nil {A} (l : list A) : subseq [] l.
Proof. induction l; constructor; auto. Qed.
Lemma subseq_filter {A} (f : A -> bool) a b : subseq a b -> subseq (filter f a) (filter f b).
Proof. induction 1; cbn; [constructor| |]; destruct (f x); try (apply ss_keep); try (apply ss_skip); auto. Qed.
Lemma subseq_map {A B} (f : A -> B) a b : subseq a b -> subseq (map f a) (map f b).
Proof. induction 1; cbn; [constructor|apply ss_skip|apply ss_keep]; auto. Qed.

Lemma NoDup_snoc {A} (l : list A) x : NoDup l -> ~ In x l -> NoDup (l ++ [x]).
Proof.
  intros HN Hx. apply (Permutation_NoDup (l := x :: l)); [|constructor; auto].
  etransitivity; [apply Permutation_cons_append|]. auto.
Qed.
Lemma nodup_range (n : nat) : forall l, NoDup l -> (forall x, In x l -> 0 <= x < Z.of_nat n) -> (length l <= n)%nat.
Proof.
  induction n as [|n IH]; intros l HN HR.
  - destruct l as [|x l]; auto. specialize (HR x (or_introl eq_refl)). lia.
  - destruct (in_dec Z.eq_dec (Z.of_nat n) l) as [Hi|Hi].
    + apply in_split in Hi as (l1 & l2 & ->). apply NoDup_remove in HN as [HN Hn].
      assert (length (l1 ++ l2) <= n)%nat.
      { apply IH; auto. intros x Hx. assert (x <> Z.of_nat n) by congruence.
        specialize (HR x). rewrite in_app_iff in *. cbn in HR. assert (0 <= x < Z.of_nat (S n)) by (apply HR; tauto). lia. }
      rewrite app_length in *. cbn. lia.
    + assert (length l <= n)%nat; [|lia]. apply IH; auto. intros x Hx. assert (x <> Z.of_nat n) by congruence. specialize (HR x Hx). lia.
Qed.

Lemma remove_addr_sub l a : subseq (remove_addr l a) l.
Proof. induction l; cbn; [constructor|]. destruct (_ =? a); [apply ss_skip; apply subseq_refl|apply ss_keep; auto]. Qed.
Lemma from_sub l a : subseq (from_swarm_queue l a) l.
Proof. induction l; cbn; [constructor|]. destruct (_ =? a); [apply ss_skip; apply subseq_refl|apply ss_keep; auto]. Qed.
Lemma subseq_in {A} (a b : list A) x : subseq a b -> In x a -> In x b.
Proof. induction 1; cbn; intuition. Qed.
Lemma subseq_nodup {A} (a b : list A) : subseq a b -> NoDup b -> NoDup a.
Proof.
  induction 1; intro HN; auto; inversion HN; subst; auto. constructor; auto. intro Hx. eapply subseq_in in Hx; eauto.
Qed.

Lemma from_in l x id : NoDup l -> In x (from_swarm_queue l id) <-> In x l /\ x <> id.
Proof.
  induction l as [|y l IH]; intro HN; cbn; [tauto|]. inversion HN; subst. destruct (y =? id) eqn:E.
  - assert (y = id) by lia. subst y. split; [intro Hx; split; auto; congruence|intros [[->|Hx] Hn]; congruence || auto].
  - cbn. rewrite IH by auto. split; [intros [->|[Hx Hn]]; [split; auto; lia|auto]|intros [[->|Hx] Hn]; auto].
Qed.
Lemma from_notin l id : ~ In id l -> from_swarm_queue l id = l.
Proof. induction l; cbn; auto. intro H. destruct (_ =? id) eqn:E; [exfalso; apply H; left; lia|]. rewrite IHl; auto. Qed.
Lemma existsb_eqb id l : existsb (Z.eqb id) l = true <-> In id l.
Proof. rewrite existsb_exists. split; [intros (x & Hx & E); assert (id = x) by lia; subst; auto|intro; exists id; split; auto; lia]. Qed.
Lemma existsb_eqb_f id l : existsb (Z.eqb id) l = false <-> ~ In id l.
Proof. rewrite <- existsb_eqb. destruct (existsb _ l); split; congruence. Qed.
Lemma to_in l x id : In x (to_swarm_queue l id) <-> In x l \/ x = id.
Proof.
  assert (H : to_swarm_queue l id = if existsb (Z.eqb id) l then l else l ++ [id]) by (destruct l; reflexivity).
  rewrite H. destruct (existsb (Z.eqb id) l) eqn:E.
  - apply existsb_eqb in E. split; [auto|intros [Hx | ->]; auto].
  - rewrite in_app_iff. cbn. intuition.
Qed.
Lemma to_nodup l id : NoDup l -> NoDup (to_swarm_queue l id).
Proof.
  assert (H : to_swarm_queue l id = if existsb (Z.eqb id) l then l else l ++ [id]) by (destruct l; reflexivity).
  rewrite H. destruct (existsb (Z.eqb id) l) eqn:E; auto. intro HN. apply existsb_eqb_f in E.
  apply NoDup_snoc; auto.
Qed.

(** ** Swarm announcements *)
Section Swarm.
Variable u : Z.
Hypothesis Hu : 0 <= u < 65536.

Lemma ids_bound l : NoDup l -> Forall (swid_ok u) l -> zlen l < 65536.
Proof.
  intros HN HF. assert (length (u :: l) <= Z.to_nat 65536)%nat.
  { apply nodup_range.
    - constructor; auto. intro H. rewrite Forall_forall in HF. apply HF in H. unfold swid_ok in H. lia.
    - intros x [<- | Hx]; [lia|]. rewrite Forall_forall in HF. apply HF in Hx. unfold swid_ok in Hx. lia. }
  cbn [length] in H. unfold zlen. lia.
Qed.

Record sinv (q : oq) : Prop := {
  si_one : o_list q = [] \/ exists l, o_list q = [l] /\ o_join q = [] /\ o_leave q = [] /\ NoDup l /\ Forall (swid_ok u) l;
  si_join : NoDup (o_join q);
  si_leave : NoDup (o_leave q);
  si_disj : forall x, In x (o_join q) -> ~ In x (o_leave q)
}.
Lemma sinv_new : sinv oq_new.
Proof. constructor; cbn; auto using NoDup_nil. Qed.
Lemma sinv_ext q q' : sinv q -> o_list q' = o_list q -> o_join q' = o_join q -> o_leave q' = o_leave q -> sinv q'.
Proof. intros [] E1 E2 E3. constructor; rewrite ?E1, ?E2, ?E3; auto. Qed.

Lemma dict_to_array_ok ids : Forall (fun e => swid_ok u (fst e)) (pentries ids) -> NoDup (map fst (pentries ids)) ->
  NoDup (dict_to_array ids) /\ Forall (swid_ok u) (dict_to_array ids) /\
  firstn (Z.to_nat (wrap16 (zlen (dict_to_array ids)))) (dict_to_array ids) = dict_to_array ids.
Proof.
  unfold dict_to_array. generalize (pentries ids). intros l HF HN.
  assert (HS : subseq (map fst (filter (fun e => negb (snd e =? 0)) l)) (map fst l)).
  { apply subseq_map. clear. induction l as [|x l IH]; cbn; [constructor|]. destruct (negb _); cbn; [apply ss_keep|apply ss_skip]; auto. }
  assert (H1 : NoDup (map fst (filter (fun e => negb (snd e =? 0)) l))) by (eapply subseq_nodup; eauto).
  assert (H2 : Forall (swid_ok u) (map fst (filter (fun e => negb (snd e =? 0)) l))).
  { apply Forall_forall. intros x Hx. eapply subseq_in in Hx; eauto. apply in_map_iff in Hx as (e & <- & He).
    rewrite Forall_forall in HF. auto. }
  splits; auto. pose proof (ids_bound _ H1 H2) as HB. pose proof (zlen_nonneg (map fst (filter (fun e => negb (snd e =? 0)) l))) as HZ.
  unfold wrap16. rewrite Z.mod_small by (change (2 ^ 16) with 65536; lia). unfold zlen. rewrite Nat2Z.id. apply firstn_all.
Qed.

Lemma append_list_eq q ids : oop_ok false (fun _ => 0) u (OList ids) ->
  append_swarm_list q ids = set_swarm q [dict_to_array ids] [] [].
Proof. intros [H1 H2]. unfold append_swarm_list. destruct (dict_to_array_ok ids H1 H2) as (_ & _ & ->). reflexivity. Qed.
Lemma sinv_list q ids : oop_ok false (fun _ => 0) u (OList ids) -> sinv (append_swarm_list q ids).
Proof.
  intro H. rewrite append_list_eq by auto. destruct H as [H1 H2]. destruct (dict_to_array_ok ids H1 H2) as (A & B & _).
  constructor; cbn; auto using NoDup_nil. right. exists (dict_to_array ids). auto.
Qed.

(** The swarm queues after a join or leave announcement. *)
Lemma joinleave_ok q join id : sinv q -> swid_ok u id ->
  exists l j v, append_joinleave q join id = Ok (set_swarm q l j v) /\ sinv (set_swarm q l j v) /\
    ((o_list q = [] /\ l = [] /\
      j = (if join then to_swarm_queue (o_join q) id else from_swarm_queue (o_join q) id) /\
      v = (if join then from_swarm_queue (o_leave q) id else to_swarm_queue (o_leave q) id)) \/
     (exists l0 l1, o_list q = [l0] /\ l = [l1] /\ j = [] /\ v = [] /\
        l1 = (if join then if existsb (Z.eqb id) l0 then l0 else l0 ++ [id] else from_swarm_queue l0 id))).
Proof.
  intros S Hid. unfold append_joinleave. destruct (si_one q S) as [E|(l0 & E & EJ & EL & HN & HF)].
  - rewrite E. destruct join; (do 3 eexists; split; [reflexivity|]; split; [|left; auto]).
    + constructor; cbn [o_list o_join o_leave set_swarm].
      * auto.
      * apply to_nodup. apply S.
      * eapply subseq_nodup; [apply from_sub|apply S].
      * intros x Hx Hx'. apply from_in in Hx' as [Hx' Hn]; [|apply S]. apply to_in in Hx as [Hx | ->]; [|congruence].
        apply (si_disj q S x); auto.
    + constructor; cbn [o_list o_join o_leave set_swarm].
      * auto.
      * eapply subseq_nodup; [apply from_sub|apply S].
      * apply to_nodup. apply S.
      * intros x Hx Hx'. apply from_in in Hx as [Hx Hn]; [|apply S]. apply to_in in Hx' as [Hx' | ->]; [|congruence].
        apply (si_disj q S x); auto.
  - rewrite E, EJ, EL.
    assert (HG : forall l1, NoDup l1 -> Forall (swid_ok u) l1 -> sinv (set_swarm q [l1] [] [])).
    { intros l1 H1 H2. constructor; cbn; auto using NoDup_nil. right. exists l1. auto. }
    assert (HQ : q = set_swarm q [l0] [] []) by (destruct q; cbn in *; subst; reflexivity).
    destruct (existsb (Z.eqb id) l0) eqn:Ex; pose proof Ex as Ex'.
    + destruct join.
      * exists [l0], [], []. split; [rewrite <- HQ; auto|]. split; [auto|]. right. exists l0, l0. rewrite ?Ex'. splits; auto.
      * exists [from_swarm_queue l0 id], [], []. split; [reflexivity|]. split.
        -- apply HG; [eapply subseq_nodup; [apply from_sub|auto]|]. apply Forall_forall. intros x Hx.
           apply (subseq_in _ _ _ (from_sub _ _)) in Hx. rewrite Forall_forall in HF. auto.
        -- right. exists l0, (from_swarm_queue l0 id). splits; auto.
    + apply existsb_eqb_f in Ex. destruct join.
      * assert (H1 : NoDup (l0 ++ [id])) by (apply NoDup_snoc; auto).
        assert (H2 : Forall (swid_ok u) (l0 ++ [id])) by (apply Forall_app; auto).
        pose proof (ids_bound _ H1 H2) as HB. rewrite zlen_app in HB. change (zlen [id]) with 1 in HB.
        pose proof (zlen_nonneg l0). unfold wrap16. rewrite Z.mod_small by (change (2 ^ 16) with 65536; lia).
        destruct (zlen l0 + 1 =? 0) eqn:Ez; [lia|].
        exists [l0 ++ [id]], [], []. split; [reflexivity|]. split; [auto|]. right. exists l0, (l0 ++ [id]). rewrite Ex'. splits; auto.
      * exists [l0], [], []. split; [rewrite <- HQ; auto|]. split; [auto|]. right. exists l0, l0. rewrite ?Ex'. splits; auto.
        rewrite from_notin; auto.
Qed.
Lemma sinv_next q q' : sinv q -> oq_next q = Ok q' -> sinv q'.
Proof.
  intros S H. unfold oq_next in H. destruct (o_bc q) as [|b bc].
  2:{ inversion H; subst. eapply sinv_ext; eauto. }
  destruct (o_list q) as [|l ls] eqn:El.
  2:{ inversion H; subst. destruct (si_one q S) as [E|(l0 & E & EJ & EL & _)]; rewrite E in El; inversion El; subst.
      constructor; cbn; rewrite ?EJ, ?EL; auto using NoDup_nil. }
  destruct (o_put q) as [|m ps].
  2:{ apply bind_ok in H as (d & _ & H). inversion H; subst. eapply sinv_ext; eauto. }
  destruct (o_query q) as [|m qs].
  2:{ apply bind_ok in H as (d & _ & H). inversion H; subst. eapply sinv_ext; eauto. }
  pose proof (si_join q S) as HJ. pose proof (si_leave q S) as HL. pose proof (si_disj q S) as HD.
  destruct (o_join q) as [|j js].
  2:{ inversion H; subst. inversion HJ; subst. constructor; cbn; auto. intros x Hx. apply HD. right. auto. }
  destruct (o_leave q) as [|j js].
  2:{ inversion H; subst. inversion HL; subst. constructor; cbn; auto. }
  inversion H; subst; auto.
Qed.
End Swarm.

(** ** Stigmergy messages *)
Section Vstig.
Variables (fl : bool) (sidof : str -> Z).
Notation P := (vkey_class fl sidof).
Notation G := (good_vclass fl sidof).
Notation uget := (pget uintkeyhash intkeycmp).
Notation uset := (pset uintkeyhash intkeycmp).
Notation umod := (pmodify uintkeyhash intkeycmp).
Notation kget := (pget (V:=Z) (khash obj_hash P) (kcmp P)).
Notation kset := (pset (V:=Z) (khash obj_hash P) (kcmp P)).
Notation krem := (premove (V:=Z) (khash obj_hash P) (kcmp P)).
Notation ktwf := (twf (V:=Z) obj_hash P).

Definition allv (q : oq) : list vmsg := o_put q ++ o_query q.
Definition look (vd : pdict Z (pdict obj Z)) (id : Z) (key : obj) : option Z :=
  match uget vd id with Some vs => kget vs key | None => None end.
Record dinv (vd : pdict Z (pdict obj Z)) : Prop := {
  di_wf : PWf uintkeyhash Z.eqb vd;
  di_t : forall id vs, uget vd id = Some vs -> ktwf vs
}.
(** The dictionary is an index of the live messages [l]. *)
Record index (vd : pdict Z (pdict obj Z)) (l : list vmsg) : Prop := {
  ix_key : forall m, In m l -> P (v_key m) = true;
  ix_nd : NoDup (map v_addr l);
  ix_1 : forall m, In m l -> look vd (v_id m) (v_key m) = Some (v_addr m);
  ix_2 : forall id key a, P key = true -> look vd id key = Some a ->
           exists m, In m l /\ v_addr m = a /\ v_id m = id /\ same_key (v_key m) key = true
}.
Record vinv (q : oq) : Prop := {
  vi_d : dinv (o_vstig q);
  vi_addr : forall m, In m (allv q) -> v_addr m < o_next q;
  vi_put : Forall (fun m => v_put m = true) (o_put q);
  vi_query : Forall (fun m => v_put m = false) (o_query q);
  vi_ix : index (o_vstig q) (allv q)
}.

Lemma vinv_new : vinv oq_new.
Proof.
  constructor; cbn [o_vstig o_put o_query o_next oq_new allv app]; auto; try (cbn; tauto).
  - constructor; [apply (wf_new _ _ _ good_u); lia|]. intros id vs H. rewrite (get_new _ _ _ good_u) in H by lia. discriminate.
  - change (allv oq_new) with (@nil vmsg). constructor; try (cbn; tauto); [constructor|]. intros id key a _ H. unfold look in H. rewrite (get_new _ _ _ good_u) in H by lia. discriminate.
Qed.

Lemma same_sym a b : P a = true -> P b = true -> same_key a b = same_key b a.
Proof.
  intros Ha Hb. destruct (same_key a b) eqn:E1, (same_key b a) eqn:E2; auto.
  - rewrite (gc_sym _ _ _ G a b) in E2; auto.
  - rewrite (gc_sym _ _ _ G b a) in E1; auto.
Qed.
Lemma look_cong vd id a b : dinv vd -> P a = true -> P b = true -> same_key a b = true -> look vd id a = look vd id b.
Proof.
  intros D Ha Hb HE. unfold look. destruct (uget vd id) as [vs|] eqn:E; auto.
  apply (get_cong _ _ _ (good_k _ _ _ G)); [apply (di_t vd D id vs E)|]. rewrite (keqb_in _ _ _ G); auto.
Qed.
Lemma addr_inj l m m' : NoDup (map v_addr l) -> In m l -> In m' l -> v_addr m = v_addr m' -> m = m'.
Proof.
  intros HN Hm Hm' HA. induction l as [|x l IH]; [destruct Hm|].
  cbn in HN. inversion HN; subst. destruct Hm as [->|Hm], Hm' as [->|Hm']; auto; exfalso; apply H1.
  - rewrite HA. apply in_map; auto.
  - rewrite <- HA. apply in_map; auto.
Qed.
(** At most one live message per stigmergy and key. *)
Lemma index_unique vd l m m' : dinv vd -> index vd l -> In m l -> In m' l -> v_id m = v_id m' ->
  same_key (v_key m) (v_key m') = true -> m = m'.
Proof.
  intros D I Hm Hm' Hid HE.
  assert (HA : v_addr m = v_addr m').
  { pose proof (ix_1 _ _ I m Hm) as H1. pose proof (ix_1 _ _ I m' Hm') as H2.
    rewrite Hid, (look_cong vd (v_id m') _ (v_key m')) in H1; auto; [congruence| |]; apply (ix_key _ _ I); auto. }
  apply (addr_inj l); auto. apply I.
Qed.

(** Updating the dictionary of one stigmergy. *)
Lemma look_mod vd id vs vs' id' key : dinv vd -> uget vd id = Some vs ->
  look (umod vd id (fun _ => vs')) id' key = if id =? id' then kget vs' key else look vd id' key.
Proof.
  intros D E. unfold look. rewrite (get_modify _ _ _ good_u) by apply D. destruct (id =? id') eqn:Ei; auto.
  assert (id = id') by lia. subst id'. rewrite E. reflexivity.
Qed.
Lemma dinv_mod vd id vs' : dinv vd -> ktwf vs' -> dinv (umod vd id (fun _ => vs')).
Proof.
  intros D HT. constructor; [apply (wf_modify _ _ _ good_u); apply D|]. intros id' vs H.
  rewrite (get_modify _ _ _ good_u) in H by apply D. destruct (id =? id'); [|eapply D; eauto].
  destruct (uget vd id'); cbn in H; congruence.
Qed.

Lemma remove_addr_in l a x : NoDup (map v_addr l) -> (In x (remove_addr l a) <-> In x l /\ v_addr x <> a).
Proof.
  induction l as [|y l IH]; intro HN; cbn; [tauto|]. inversion HN; subst. destruct (v_addr y =? a) eqn:E.
  - assert (v_addr y = a) by lia. split.
    + intro Hx. split; auto. intro Hc. apply H1. rewrite H, <- Hc. apply in_map; auto.
    + intros [[<- | Hx] Hn]; [congruence|auto].
  - cbn. rewrite IH by auto. split; [intros [<- | [Hx Hn]]; [split; auto; lia|auto]|intros [[<- | Hx] Hn]; auto].
Qed.
Lemma remove_addr_notin l a : (forall x, In x l -> v_addr x <> a) -> remove_addr l a = l.
Proof. induction l as [|x l IH]; cbn; intro H; auto. destruct (_ =? a) eqn:E; [exfalso; apply (H x); auto; lia|]. rewrite IH; auto. Qed.
Lemma remove_addr_app l r a : (exists x, In x l /\ v_addr x = a) -> remove_addr (l ++ r) a = remove_addr l a ++ r.
Proof.
  induction l as [|x l IH]; intros (y & Hy & Ha); [destruct Hy|]. cbn. destruct (_ =? a) eqn:E; auto. cbn. f_equal. apply IH.
  destruct Hy as [-> | Hy]; [lia|eauto].
Qed.
Lemma remove_addr_app2 l r a : (forall x, In x l -> v_addr x <> a) -> remove_addr (l ++ r) a = l ++ remove_addr r a.
Proof. induction l as [|x l IH]; cbn; intro H; auto. destruct (_ =? a) eqn:E; [exfalso; apply (H x); auto; lia|]. rewrite IH; auto. Qed.

(** A new message replaces in the index the live message (if any) for the same key. *)
Lemma index_add vd l id vs key m : dinv vd -> index vd l -> uget vd id = Some vs -> P key = true ->
  v_id m = id -> v_key m = key -> (forall x, In x l -> v_addr x < v_addr m) ->
  let a := kget vs key in
  let l' := match a with Some a => remove_addr l a | None => l end in
  forall l2, Permutation l2 (m :: l') ->
  dinv (umod vd id (fun _ => kset vs key (v_addr m))) /\ index (umod vd id (fun _ => kset vs key (v_addr m))) l2.
Proof.
  intros D I Hg Hk Hid Hmk Hlt a l' l2 HP.
  assert (HT : ktwf vs) by (eapply di_t; eauto).
  assert (HT' : ktwf (kset vs key (v_addr m))) by (apply (twf_set _ _ _ G); auto).
  assert (Ha : look vd id key = a) by (unfold look; rewrite Hg; auto).
  assert (Hin : forall x, In x l2 <-> x = m \/ (In x l /\ a <> Some (v_addr x))).
  { intro x. split.
    - intro Hx. apply (Permutation_in _ HP) in Hx as [<- | Hx]; auto. right. unfold l' in Hx. destruct a as [a'|].
      + apply remove_addr_in in Hx as [Hx Hn]; [|apply I]. split; auto. congruence.
      + split; auto. discriminate.
    - intro Hx. apply (Permutation_in _ (Permutation_sym HP)). destruct Hx as [-> | [Hx Hn]]; [left; auto|right].
      unfold l'. destruct a as [a'|]; auto. apply remove_addr_in; [apply I|]. split; auto. congruence. }
  split; [apply dinv_mod; auto|]. constructor.
  - intros x Hx. apply Hin in Hx as [-> | [Hx _]]; [congruence|apply (ix_key _ _ I); auto].
  - apply (Permutation_NoDup (Permutation_map v_addr (Permutation_sym HP))). cbn. constructor.
    + intro Hx. apply in_map_iff in Hx as (x & Hx & Hxl). assert (In x l).
      { unfold l' in Hxl. destruct a; auto. eapply subseq_in; [apply remove_addr_sub|eauto]. }
      apply Hlt in H. lia.
    + unfold l'. destruct a; [|apply I]. eapply subseq_nodup; [|apply I]. apply subseq_map, remove_addr_sub.
  - intros x Hx. rewrite (look_mod vd id vs) by auto. apply Hin in Hx as [-> | [Hx Hn]].
    + rewrite Hid, Z.eqb_refl, Hmk. rewrite (get_set _ _ _ (good_k _ _ _ G)) by apply HT.
      rewrite (keqb_in _ _ _ G), (gc_refl _ _ _ G) by auto. reflexivity.
    + pose proof (ix_key _ _ I x Hx) as Hxk. pose proof (ix_1 _ _ I x Hx) as HL. destruct (id =? v_id x) eqn:Ei; auto.
      assert (id = v_id x) by lia. rewrite (get_set _ _ _ (good_k _ _ _ G)) by apply HT. rewrite (keqb_in _ _ _ G) by auto.
      destruct (same_key key (v_key x)) eqn:Es.
      * exfalso. apply Hn. rewrite <- Ha, <- HL, H. apply look_cong; auto.
      * unfold look in HL. rewrite <- H, Hg in HL. exact HL.
  - intros id' key' a' Hk' HL. rewrite (look_mod vd id vs) in HL by auto. destruct (id =? id') eqn:Ei.
    + assert (id = id') by lia. subst id'. rewrite (get_set _ _ _ (good_k _ _ _ G)) in HL by apply HT.
      rewrite (keqb_in _ _ _ G) in HL by auto. destruct (same_key key key') eqn:Es.
      * exists m. splits; auto; try congruence. apply Hin; auto.
      * assert (HL2 : look vd id key' = Some a') by (unfold look; rewrite Hg; auto).
        destruct (ix_2 _ _ I id key' a' Hk' HL2) as (x & Hx & Hxa & Hxi & Hxs). exists x. splits; auto.
        apply Hin. right. split; auto. intro Hc.
        assert (look vd id key = look vd id key') by congruence.
        assert (HX : same_key key key' = true); [|congruence].
        pose proof (ix_1 _ _ I x Hx) as HX1.
        destruct (ix_2 _ _ I id key (v_addr x) Hk ltac:(congruence)) as (y & Hy & Hya & Hyi & Hys).
        assert (y = x) by (apply (addr_inj l); auto; apply I). subst y.
        apply (gc_trans _ _ _ G key (v_key x) key'); auto; [apply (ix_key _ _ I); auto|].
        rewrite same_sym; auto. apply (ix_key _ _ I); auto.
    + destruct (ix_2 _ _ I id' key' a' Hk' HL) as (x & Hx & Hxa & Hxi & Hxs). exists x. splits; auto.
      apply Hin. right. split; auto. intro Hc.
      destruct (ix_2 _ _ I id key (v_addr x) Hk ltac:(congruence)) as (y & Hy & Hya & Hyi & Hys).
      assert (y = x) by (apply (addr_inj l); auto; apply I). subst y. lia.
Qed.

Definition sk (id : Z) (key : obj) (m : vmsg) : bool := (v_id m =? id) && same_key (v_key m) key.
Lemma look_find vd l id key : dinv vd -> index vd l -> P key = true ->
  look vd id key = option_map v_addr (find (sk id key) l).
Proof.
  intros D I Hk. destruct (find (sk id key) l) as [m|] eqn:E; cbn.
  - apply find_some in E as [Hm E]. unfold sk in E. apply andb_true_iff in E as [Ei Es].
    rewrite <- (ix_1 _ _ I m Hm). replace (v_id m) with id by lia. apply look_cong; auto.
    + apply (ix_key _ _ I); auto.
    + rewrite same_sym; auto. apply (ix_key _ _ I); auto.
  - destruct (look vd id key) as [a|] eqn:EL; auto. exfalso.
    destruct (ix_2 _ _ I id key a Hk EL) as (m & Hm & _ & Hi & Hs). eapply find_none in E; eauto.
    unfold sk in E. rewrite Hi, Hs, Z.eqb_refl in E. discriminate.
Qed.
Lemma deref_ok q m : vinv q -> In m (allv q) -> deref q (v_addr m) = Ok m.
Proof.
  intros V Hm. unfold deref. fold (allv q). destruct (find _ (allv q)) as [m'|] eqn:E.
  - apply find_some in E as [Hm' E]. f_equal. apply (addr_inj (allv q)); auto; [apply V|lia].
  - eapply find_none in E; eauto. cbn in E. lia.
Qed.

Definition new_msg (q : oq) (put : bool) (id : Z) (key : obj) (data : velem) : vmsg :=
  {| v_addr := o_next q; v_put := put; v_id := id; v_key := key; v_data := data |}.

Lemma append_vstig_ok q put id key data : vinv q -> P key = true ->
  exists q', append_vstig q put id key data = Ok q' /\ vinv q' /\
    o_bc q' = o_bc q /\ o_list q' = o_list q /\ o_join q' = o_join q /\ o_leave q' = o_leave q /\
    let m := new_msg q put id key data in
    let old := find (sk id key) (allv q) in
    let keep := match old with Some o => ve_ts (v_data o) >=? ve_ts data | None => false end in
    let rm l := match old with Some o => remove_addr l (v_addr o) | None => l end in
    o_put q' = (if keep then o_put q else if put then rm (o_put q) ++ [m] else rm (o_put q)) /\
    o_query q' = (if keep then o_query q else if put then rm (o_query q) else rm (o_query q) ++ [m]).
Proof.
  intros V Hk. pose proof (vi_d q V) as D. pose proof (vi_ix q V) as I.
  (* the dictionary of the stigmergy, created if necessary *)
  assert (HX : exists vd vs, 
     vs_lookup (o_vstig q) id key = Ok (vd, vs, look (o_vstig q) id key) /\ dinv vd /\ uget vd id = Some vs /\
     kget vs key = look (o_vstig q) id key /\ (forall id' key', look vd id' key' = look (o_vstig q) id' key')).
  { unfold look, vs_lookup. destruct (uget (o_vstig q) id) as [vs|] eqn:E.
    - exists (o_vstig q), vs. rewrite (rget_pget _ _ _ G) by (auto; eapply di_t; eauto). cbn [bind]. splits; auto.
    - exists (uset (o_vstig q) id (pnew 10)), (pnew 10).
      assert (Hn : forall k', kget (pnew 10) k' = None) by (intro; apply (get_new _ _ _ (good_k _ _ _ G)); lia).
      splits; auto.
      + constructor; [apply (wf_set _ _ _ good_u), D|]. intros id' vs' H. rewrite (get_set _ _ _ good_u) in H by apply D.
        destruct (id =? id'); [|eapply D; eauto]. inversion H; subst. apply (twf_new _ _ _ G).
      + rewrite (get_set _ _ _ good_u), Z.eqb_refl by apply D. reflexivity.
      + intros id' key'. rewrite (get_set _ _ _ good_u) by apply D. destruct (id =? id') eqn:Ei; auto.
        assert (id = id') by lia. subst id'. rewrite Hn, E. reflexivity. }
  destruct HX as (vd & vs & HX & Dv & Hg & Hkg & Hsame). unfold append_vstig. rewrite HX. cbn [bind]. clear HX.
  assert (Iv : index vd (allv q)).
  { constructor; try apply I; intros; rewrite Hsame in *; apply I; auto. }
  rewrite (look_find _ _ _ _ D I Hk) in *. clear Hsame.
  assert (HT : ktwf vs) by (eapply di_t; eauto).
  set (m := new_msg q put id key data).
  assert (HA := index_add vd (allv q) id vs key m Dv Iv Hg Hk eq_refl eq_refl (vi_addr q V)). cbv zeta in HA. rewrite Hkg in HA.
  rewrite (rset_pset _ _ _ G) by auto.
  pose proof (vi_put q V) as VP. pose proof (vi_query q V) as VQ. pose proof (ix_nd _ _ I) as ND.
  assert (HF : forall l a Q, Forall Q l -> Forall Q (remove_addr l a)).
  { intros l a Q HQ. apply Forall_forall. intros x Hx. eapply subseq_in in Hx; [|apply remove_addr_sub]. rewrite Forall_forall in HQ; auto. }
  destruct (find (sk id key) (allv q)) as [o|] eqn:EF; cbn [option_map] in *.
  - apply find_some in EF as [Ho Es]. rewrite (deref_ok q o V Ho). cbn [bind]. destruct (_ >=? _) eqn:Et.
    + eexists. split; [reflexivity|]. split; [|splits; auto].
      constructor; cbn [o_vstig o_put o_query o_next set_vs]; auto; apply V.
    + assert (HR : remove_addr (allv q) (v_addr o) = remove_addr (o_put q) (v_addr o) ++ remove_addr (o_query q) (v_addr o) /\
                   (if v_put o then remove_addr (o_query q) (v_addr o) = o_query q else remove_addr (o_put q) (v_addr o) = o_put q)).
      { assert (Hd : forall x y, In x (o_put q) -> In y (o_query q) -> v_addr x <> v_addr y).
        { intros x y Hx Hy Hc. assert (x = y). { apply (addr_inj (allv q)); auto; unfold allv; apply in_app_iff; auto. }
          subst y. rewrite Forall_forall in VP, VQ. apply VP in Hx. apply VQ in Hy. congruence. }
        unfold allv in Ho. apply in_app_iff in Ho as [Ho|Ho].
        - rewrite Forall_forall in VP. rewrite (VP o Ho). assert (HN : remove_addr (o_query q) (v_addr o) = o_query q).
          { apply remove_addr_notin. intros y Hy Hc. symmetry in Hc. revert Hc. apply Hd; auto. }
          rewrite HN. split; auto. unfold allv. apply remove_addr_app. eauto.
        - rewrite Forall_forall in VQ. rewrite (VQ o Ho). assert (HN : remove_addr (o_put q) (v_addr o) = o_put q).
          { apply remove_addr_notin. intros y Hy. apply Hd; auto. }
          rewrite HN. split; auto. unfold allv. apply remove_addr_app2. intros x Hx. apply Hd; auto. }
      destruct HR as [HR1 HR2]. rewrite HR1 in HA. cbn [bind]. cbv zeta. eexists. split; [reflexivity|].
      set (rp := remove_addr (o_put q) (v_addr o)) in *. set (rq := remove_addr (o_query q) (v_addr o)) in *.
      assert (Hshape : forall q', o_put q' = (if put then rp ++ [m] else rp) -> o_query q' = (if put then rq else rq ++ [m]) ->
                o_vstig q' = umod vd id (fun _ => kset vs key (o_next q)) -> o_next q' = o_next q + 1 -> vinv q').
      { intros q' E1 E2 E3 E4.
        assert (HPm : Permutation (allv q') (m :: rp ++ rq)).
        { unfold allv. rewrite E1, E2. destruct put.
          - rewrite <- app_assoc. symmetry. apply (Permutation_middle rp rq m).
          - etransitivity; [apply Permutation_app_comm|]. rewrite <- app_assoc.
            etransitivity; [symmetry; apply (Permutation_middle rq rp m)|]. constructor. apply Permutation_app_comm. }
        destruct (HA _ HPm) as [HA1 HA2]. constructor.
        - rewrite E3. exact HA1.
        - intros x Hx. apply (Permutation_in _ HPm) in Hx. rewrite E4. destruct Hx as [<- | Hx]; [cbn; lia|].
          assert (In x (allv q)). { eapply subseq_in; [apply remove_addr_sub|]. rewrite HR1. exact Hx. }
          apply (vi_addr q V) in H. lia.
        - rewrite E1. destruct put; [apply Forall_app; split; [apply HF; auto|constructor; auto]|apply HF; auto].
        - rewrite E2. destruct put; [apply HF; auto|apply Forall_app; split; [apply HF; auto|constructor; auto]].
        - rewrite E3. exact HA2. }
      split; [apply Hshape|]; destruct (v_put o); cbn [o_put o_query o_bc o_list o_join o_leave o_vstig o_next set_vs vqueue];
        try (splits; auto); fold m; try (subst rq; rewrite HR2 in * ); try (subst rp; rewrite HR2 in * );
        try (destruct put; reflexivity); auto; try (fold rp); try (fold rq); destruct put; auto.
  - cbn [bind]. eexists. split; [reflexivity|].
    assert (Hshape : forall q', o_put q' = (if put then o_put q ++ [m] else o_put q) -> o_query q' = (if put then o_query q else o_query q ++ [m]) ->
                o_vstig q' = umod vd id (fun _ => kset vs key (o_next q)) -> o_next q' = o_next q + 1 -> vinv q').
    { intros q' E1 E2 E3 E4.
      assert (HPm : Permutation (allv q') (m :: allv q)).
      { unfold allv. rewrite E1, E2. destruct put.
        - rewrite <- app_assoc. symmetry. apply (Permutation_middle (o_put q) (o_query q) m).
        - rewrite app_assoc. etransitivity; [apply Permutation_app_comm|]. reflexivity. }
      destruct (HA _ HPm) as [HA1 HA2]. constructor.
      - rewrite E3. exact HA1.
      - intros x Hx. apply (Permutation_in _ HPm) in Hx. rewrite E4. destruct Hx as [<- | Hx]; [cbn; lia|].
        apply (vi_addr q V) in Hx. lia.
      - rewrite E1. destruct put; [apply Forall_app; split; [auto|constructor; auto]|auto].
      - rewrite E2. destruct put; [auto|apply Forall_app; split; [auto|constructor; auto]].
      - rewrite E3. exact HA2. }
    split; [apply Hshape|]; cbn [o_put o_query o_bc o_list o_join o_leave o_vstig o_next set_vs vqueue]; auto;
      try (splits; auto); fold m; destruct put; auto.
Qed.

Lemma index_remove vd l m vs l2 : dinv vd -> index vd l -> In m l -> uget vd (v_id m) = Some vs ->
  Permutation l2 (remove_addr l (v_addr m)) ->
  dinv (umod vd (v_id m) (fun _ => krem vs (v_key m))) /\ index (umod vd (v_id m) (fun _ => krem vs (v_key m))) l2.
Proof.
  intros D I Hm Hg HP.
  assert (HT : ktwf vs) by (eapply di_t; eauto).
  assert (Hmk : P (v_key m) = true) by (apply (ix_key _ _ I); auto).
  assert (HT' : ktwf (krem vs (v_key m))) by (apply (twf_remove _ _ _ G); auto).
  assert (Hin : forall x, In x l2 <-> In x l /\ v_addr x <> v_addr m).
  { intro x. rewrite <- remove_addr_in by apply I. split; apply Permutation_in; [auto|symmetry; auto]. }
  split; [apply dinv_mod; auto|]. constructor.
  - intros x Hx. apply Hin in Hx as [Hx _]. apply (ix_key _ _ I); auto.
  - apply (Permutation_NoDup (Permutation_map v_addr (Permutation_sym HP))).
    eapply subseq_nodup; [|apply I]. apply subseq_map, remove_addr_sub.
  - intros x Hx. rewrite (look_mod vd (v_id m) vs) by auto. apply Hin in Hx as [Hx Hn].
    pose proof (ix_key _ _ I x Hx) as Hxk. pose proof (ix_1 _ _ I x Hx) as HL. destruct (v_id m =? v_id x) eqn:Ei; auto.
    assert (v_id m = v_id x) by lia. rewrite (get_remove _ _ _ (good_k _ _ _ G)) by apply HT. rewrite (keqb_in _ _ _ G) by auto.
    destruct (same_key (v_key m) (v_key x)) eqn:Es.
    + exfalso. apply Hn. f_equal. symmetry. apply (index_unique vd l); auto.
    + unfold look in HL. rewrite <- H, Hg in HL. exact HL.
  - intros id' key' a' Hk' HL. rewrite (look_mod vd (v_id m) vs) in HL by auto.
    assert (HL2 : look vd id' key' = Some a' /\ (v_id m = id' -> same_key (v_key m) key' = false)).
    { destruct (v_id m =? id') eqn:Ei.
      - assert (v_id m = id') by lia. subst id'. rewrite (get_remove _ _ _ (good_k _ _ _ G)) in HL by apply HT.
        rewrite (keqb_in _ _ _ G) in HL by auto. destruct (same_key (v_key m) key') eqn:Es; [discriminate|].
        split; auto. unfold look. rewrite Hg. auto.
      - split; auto. lia. }
    destruct HL2 as [HL2 Hne]. destruct (ix_2 _ _ I id' key' a' Hk' HL2) as (x & Hx & Hxa & Hxi & Hxs).
    exists x. splits; auto. apply Hin. split; auto. intro Hc.
    assert (x = m) by (apply (addr_inj l); auto; apply I). subst x. rewrite Hne in Hxs; auto. discriminate.
Qed.
Lemma forget_ok q m l2 : vinv q -> In m (allv q) -> Permutation l2 (remove_addr (allv q) (v_addr m)) ->
  exists d, forget q m = Ok d /\ dinv d /\ index d l2.
Proof.
  intros V Hm HP. pose proof (vi_d q V) as D. pose proof (vi_ix q V) as I. unfold forget.
  pose proof (ix_1 _ _ I m Hm) as HL. unfold look in HL. destruct (uget (o_vstig q) (v_id m)) as [vs|] eqn:E; [|discriminate].
  assert (HT : ktwf vs) by (eapply di_t; eauto).
  rewrite (rremove_premove _ _ _ G) by (auto; apply (ix_key _ _ I); auto). cbn [bind]. eexists. split; [reflexivity|].
  apply (index_remove (o_vstig q) (allv q)); auto.
Qed.
End Vstig.

(** ** The whole queue *)
Definition put_msg (m : vmsg) : omsg := MPut (v_id m) (v_key m) (v_data m).
Definition query_msg (m : vmsg) : omsg := MQuery (v_id m) (v_key m) (v_data m).
Definition pending (q : oq) : list omsg :=
  map (fun e => MBroadcast (fst e) (snd e)) (o_bc q) ++ map MList (o_list q) ++ map put_msg (o_put q) ++
  map query_msg (o_query q) ++ map MJoin (o_join q) ++ map MLeave (o_leave q).

Section Queue.
Variables (fl : bool) (sidof : str -> Z) (u : Z).
Hypothesis Hu : 0 <= u < 65536.
Notation P := (vkey_class fl sidof).
Definition oinv (q : oq) : Prop := vinv fl sidof q /\ sinv u q.
Lemma oinv_new : oinv oq_new.
Proof. split; [apply vinv_new|apply sinv_new]. Qed.

Lemma vinv_ext q q' : vinv fl sidof q -> o_put q' = o_put q -> o_query q' = o_query q -> o_vstig q' = o_vstig q ->
  o_next q' = o_next q -> vinv fl sidof q'.
Proof.
  intros [] E1 E2 E3 E4. constructor; unfold allv in *; rewrite ?E1, ?E2, ?E3, ?E4; auto.
Qed.

Lemma next_ok q : oinv q -> exists q', oq_next q = Ok q' /\ oinv q' /\
  match pending q with
  | [] => oq_first q = None /\ q' = q
  | m :: t => oq_first q = Some m /\ pending q' = t
  end.
Proof.
  intros [V S].
  assert (HV : forall q', oq_next q = Ok q' -> vinv fl sidof q' -> oinv q') by (intros; split; auto; eapply sinv_next; eauto).
  unfold oq_next, oq_first in *. unfold pending.
  destruct (o_bc q) as [|[t v] bc] eqn:Eb.
  2:{ eexists. split; [reflexivity|]. split; [apply HV; [reflexivity|eapply vinv_ext; eauto]|]. cbn. auto. }
  destruct (o_list q) as [|l ls] eqn:El.
  2:{ eexists. split; [reflexivity|]. split; [apply HV; [reflexivity|eapply vinv_ext; eauto]|]. cbn. rewrite Eb. auto. }
  destruct (o_put q) as [|m ps] eqn:Ep.
  2:{ assert (Hrm : remove_addr (allv q) (v_addr m) = ps ++ o_query q).
      { unfold allv. rewrite Ep. cbn. rewrite Z.eqb_refl. reflexivity. }
      destruct (forget_ok fl sidof q m (ps ++ o_query q) V) as (d & Ed & D & I).
      { unfold allv. rewrite Ep. left. auto. }
      { rewrite Hrm. auto. }
      rewrite Ed in *. cbn [bind] in *. eexists. split; [reflexivity|]. split; [apply HV; [reflexivity|]|].
      - pose proof (vi_put _ _ q V) as VP. rewrite Ep in VP. apply Forall_inv_tail in VP.
        constructor; cbn [o_vstig o_put o_query o_next set_vs]; auto; try apply V.
        intros x Hx. apply (vi_addr _ _ q V). unfold allv in *. cbn [o_put o_query set_vs] in Hx. rewrite Ep. right. auto.
      - cbn. rewrite Eb, El. auto. }
  destruct (o_query q) as [|m ps] eqn:Eq.
  2:{ assert (Hrm : remove_addr (allv q) (v_addr m) = ps).
      { unfold allv. rewrite Ep, Eq. cbn. rewrite Z.eqb_refl. reflexivity. }
      destruct (forget_ok fl sidof q m ps V) as (d & Ed & D & I).
      { unfold allv. rewrite Ep, Eq. left. auto. }
      { rewrite Hrm. auto. }
      rewrite Ed in *. cbn [bind] in *. eexists. split; [reflexivity|]. split; [apply HV; [reflexivity|]|].
      - pose proof (vi_query _ _ q V) as VQ. rewrite Eq in VQ. apply Forall_inv_tail in VQ.
        constructor; cbn [o_vstig o_put o_query o_next set_vs]; auto; try apply V.
        { intros x Hx. apply (vi_addr _ _ q V). unfold allv in *. cbn [o_put o_query set_vs] in Hx. rewrite Ep in *. rewrite Eq. right. auto. }
        unfold allv. cbn [o_put o_query set_vs]. rewrite Ep. auto.
      - cbn. rewrite Eb, El, Ep. auto. }
  destruct (o_join q) as [|j js] eqn:Ej.
  2:{ eexists. split; [reflexivity|]. split; [apply HV; [reflexivity|eapply vinv_ext; eauto]|]. cbn. rewrite Eb, Ep, Eq. auto. }
  destruct (o_leave q) as [|j js] eqn:Ev.
  2:{ eexists. split; [reflexivity|]. split; [apply HV; [reflexivity|eapply vinv_ext; eauto]|]. cbn. rewrite Eb, Ep, Eq. auto. }
  eexists. split; [reflexivity|]. split; [split; auto|]. cbn. auto.
Qed.

Lemma step_ok q o : oinv q -> oop_ok fl sidof u o -> exists q' s, oq_step q o = Ok (q', s) /\ oinv q'.
Proof.
  intros [V S] Ho. destruct o as [t v|ids|id|id|p id k d|]; cbn [oq_step].
  - do 2 eexists. split; [reflexivity|]. split; [eapply vinv_ext; eauto|eapply sinv_ext; eauto].
  - do 2 eexists. split; [reflexivity|]. split; [eapply vinv_ext; eauto|]. apply sinv_list; auto.
  - destruct (joinleave_ok u Hu q true id S Ho) as (l & j & v & -> & S' & _). cbn [bind]. do 2 eexists. split; [reflexivity|].
    split; auto. eapply vinv_ext; eauto.
  - destruct (joinleave_ok u Hu q false id S Ho) as (l & j & v & -> & S' & _). cbn [bind]. do 2 eexists. split; [reflexivity|].
    split; auto. eapply vinv_ext; eauto.
  - destruct (append_vstig_ok fl sidof q p id k d V Ho) as (q' & -> & V' & E1 & E2 & E3 & E4 & _). cbn [bind].
    do 2 eexists. split; [reflexivity|]. split; auto. eapply sinv_ext; eauto.
  - destruct (next_ok q (conj V S)) as (q' & -> & I & _). cbn [bind]. eauto.
Qed.

(** Induction over histories. *)
Lemma run_ok ops : forall q, oinv q -> Forall (oop_ok fl sidof u) ops ->
  exists q' outs, oq_run q ops = Ok (q', outs) /\ oinv q'.
Proof.
  induction ops as [|o ops IH]; intros q I HF; cbn [oq_run]; [eauto|]. inversion HF; subst.
  destruct (step_ok q o I) as (q1 & s & -> & I1); auto. cbn [bind].
  destruct (IH q1 I1) as (q2 & s2 & -> & I2); auto. cbn [bind]. eauto.
Qed.
Lemma run_ind (R : oq -> list oop -> list (list omsg) -> Prop) q0 :
  (forall q1 ops outs o q2 s, R q1 ops outs -> oinv q1 -> oop_ok fl sidof u o -> oq_step q1 o = Ok (q2, s) -> oinv q2 ->
      R q2 (ops ++ [o]) (outs ++ [s])) ->
  R q0 [] [] -> oinv q0 ->
  forall ops q outs, Forall (oop_ok fl sidof u) ops -> oq_run q0 ops = Ok (q, outs) -> R q ops outs /\ oinv q.
Proof.
  intros Hstep H0 I0.
  assert (HG : forall ops q1 pre prouts, R q1 pre prouts -> oinv q1 -> Forall (oop_ok fl sidof u) ops ->
     forall q outs, oq_run q1 ops = Ok (q, outs) -> R q (pre ++ ops) (prouts ++ outs) /\ oinv q).
  { induction ops as [|o ops IH]; intros q1 pre prouts HR I1 HF q outs HE; cbn [oq_run] in HE.
    - inversion HE; subst. rewrite !app_nil_r. auto.
    - inversion HF; subst. destruct (step_ok q1 o I1) as (q2 & s & E & I2); auto. rewrite E in HE. cbn [bind] in HE.
      apply bind_ok in HE as ([q3 s3] & E3 & HE). inversion HE; subst.
      replace (pre ++ o :: ops) with ((pre ++ [o]) ++ ops) by (rewrite <- app_assoc; reflexivity).
      replace (prouts ++ s :: s3) with ((prouts ++ [s]) ++ s3) by (rewrite <- app_assoc; reflexivity).
      eapply IH; eauto. }
  intros ops q outs HF HE. apply (HG ops q0 [] []); auto.
Qed.

(** Draining. *)
Lemma drain n : forall q, oinv q -> (length (pending q) <= n)%nat ->
  exists q' outs, oq_run q (repeat OSend n) = Ok (q', outs) /\ concat outs = pending q /\ pending q' = [] /\ oinv q'.
Proof.
  induction n as [|n IH]; intros q I Hn; cbn [repeat oq_run].
  - exists q, []. assert (pending q = []) by (destruct (pending q); auto; cbn in Hn; lia). splits; auto.
  - destruct (next_ok q I) as (q1 & E & I1 & HM). cbn [oq_step]. rewrite E. cbn [bind].
    destruct (pending q) as [|m t] eqn:Ep.
    + destruct HM as [-> ->]. destruct (IH q I) as (q' & outs & -> & HC & HP & I'); [rewrite Ep; cbn; lia|]. cbn [bind].
      do 2 eexists. split; [reflexivity|]. splits; auto. cbn. rewrite HC. auto.
    + destruct HM as [-> Et]. destruct (IH q1 I1) as (q' & outs & -> & HC & HP & I'); [rewrite Et; cbn in Hn; lia|]. cbn [bind].
      do 2 eexists. split; [reflexivity|]. splits; auto. cbn. rewrite HC, Et. auto.
Qed.

Lemma by_priority_app a b : by_priority a -> by_priority b -> (forall x y, In x a -> In y b -> prio x <= prio y) -> by_priority (a ++ b).
Proof.
  induction a as [|x a IH]; cbn; intros Ha Hb H; auto. destruct Ha as [Hx Ha]. split.
  - apply Forall_app. split; auto. apply Forall_forall. auto.
  - apply IH; auto.
Qed.
Lemma by_priority_map {A} (f : A -> omsg) n l : (forall x, prio (f x) = n) -> by_priority (map f l).
Proof.
  intro H. induction l; cbn; auto. split; auto. apply Forall_forall. intros m Hm. apply in_map_iff in Hm as (x & <- & _). rewrite !H. lia.
Qed.
Lemma pending_priority q : by_priority (pending q).
Proof.
  unfold pending. repeat (apply by_priority_app; [eapply by_priority_map; intros; cbn; reflexivity| |]).
  - eapply by_priority_map; intros; cbn; reflexivity.
  - intros x y Hx Hy. apply in_map_iff in Hx as (? & <- & _). rewrite ?in_app_iff, ?in_map_iff in Hy. firstorder (subst; cbn; lia).
  - intros x y Hx Hy. apply in_map_iff in Hx as (? & <- & _). rewrite ?in_app_iff, ?in_map_iff in Hy. firstorder (subst; cbn; lia).
  - intros x y Hx Hy. apply in_map_iff in Hx as (? & <- & _). rewrite ?in_app_iff, ?in_map_iff in Hy. firstorder (subst; cbn; lia).
  - intros x y Hx Hy. apply in_map_iff in Hx as (? & <- & _). rewrite ?in_app_iff, ?in_map_iff in Hy. firstorder (subst; cbn; lia).
  - intros x y Hx Hy. apply in_map_iff in Hx as (? & <- & _). rewrite ?in_app_iff, ?in_map_iff in Hy. firstorder (subst; cbn; lia).
Qed.
Lemma pending_size q : oq_size q = wrap32 (zlen (pending q)).
Proof. unfold oq_size, pending. rewrite !zlen_app, !zlen_map. f_equal. lia. Qed.
End Queue.
