From Verif Require Import Base ListLemmas Dict DictSpec PDict DictProofs PDictKeys Strman Obj ObjSpec ObjProofs OutMsg OutMsgSpec OutMsgProofs OutMsgRun
  Vstig VstigSpec.

Section V.
Variables (fl : bool) (sidof : str -> Z).
Notation P := (vkey_class fl sidof).
Let G := good_vclass fl sidof.
Notation uget := (pget uintkeyhash intkeycmp).
Notation kget := (pget (V:=velem) (khash obj_hash P) (kcmp P)).
Notation kset := (pset (V:=velem) (khash obj_hash P) (kcmp P)).
Notation krem := (premove (V:=velem) (khash obj_hash P) (kcmp P)).
Notation kmod := (pmodify (V:=velem) (khash obj_hash P) (kcmp P)).
Notation ktwf := (twf (V:=velem) obj_hash P).

Record winv (s : vstate) : Prop := {
  wi_wf : PWf uintkeyhash Z.eqb (st_vstigs s);
  wi_t : forall id vs, vfind s id = Some vs -> ktwf (vs_data vs);
  wi_q : vinv fl sidof (st_out s);
  wi_o : o_bc (st_out s) = [] /\ o_list (st_out s) = [] /\ o_join (st_out s) = [] /\ o_leave (st_out s) = []
}.
Lemma winv_new r : winv (vst_new r).
Proof.
  constructor; cbn [vst_new st_vstigs st_out]; auto.
  - apply (wf_new _ _ _ good_u); lia.
  - intros id vs H. unfold vfind in H. cbn [vst_new st_vstigs] in H. rewrite (get_new _ _ _ good_u) in H by lia. discriminate.
  - apply vinv_new.
Qed.

(** ** Replacing the data of one stigmergy *)
Lemma vfind_vupd s id vs id' : winv s -> vfind s id <> None ->
  vfind (vupd s id vs) id' = if id =? id' then Some vs else vfind s id'.
Proof.
  intros W HN. unfold vfind, vupd. cbn [st_vstigs]. rewrite (get_modify _ _ _ good_u) by apply W.
  destruct (id =? id') eqn:E; auto. assert (id = id') by lia. subst id'. unfold vfind in HN. destruct (uget (st_vstigs s) id); cbn; congruence.
Qed.
Lemma winv_vupd s id vs : winv s -> ktwf (vs_data vs) -> winv (vupd s id vs).
Proof.
  intros W HT. constructor; unfold vupd; cbn [st_vstigs st_out]; try apply W.
  - apply (wf_modify _ _ _ good_u). apply W.
  - intros id' vs' H. unfold vfind in H. cbn [st_vstigs] in H. rewrite (get_modify _ _ _ good_u) in H by apply W.
    destruct (id =? id') eqn:E; [|eapply W; eauto].
    destruct (uget (st_vstigs s) id'); cbn in H; [inversion H; subst; auto|discriminate].
Qed.
Lemma entry_kget s id k : winv s -> P k = true ->
  entry s id k = match vfind s id with Some vs => kget (vs_data vs) k | None => None end.
Proof.
  intros W Hk. unfold entry. destruct (vfind s id) as [vs|] eqn:E; auto. unfold vfetch.
  rewrite (rget_pget _ _ _ G) by (auto; eapply W; eauto). reflexivity.
Qed.
Lemma vfetch_ok s id vs k : winv s -> vfind s id = Some vs -> P k = true -> vfetch vs k = Ok (entry s id k).
Proof.
  intros W HV Hk. rewrite entry_kget, HV by auto. apply (rget_pget _ _ _ G); auto. eapply W; eauto.
Qed.
Lemma entry_cong s id a b : winv s -> P a = true -> P b = true -> same_key a b = true -> entry s id a = entry s id b.
Proof.
  intros W Ha Hb HE. rewrite !entry_kget by auto. destruct (vfind s id) as [vs|] eqn:E; auto.
  apply (get_cong _ _ _ (good_k _ _ _ G)); [apply (wi_t s W _ _ E)|]. rewrite (keqb_in _ _ _ G); auto.
Qed.

(** What a change of the store does. *)
Definition stores (s : vstate) (id : Z) (k : obj) (e : option velem) (s' : vstate) : Prop :=
  winv s' /\ st_robot s' = st_robot s /\
  (forall id', option_map vs_oc (vfind s' id') = option_map vs_oc (vfind s id')) /\
  (forall id', option_map vs_ocl (vfind s' id') = option_map vs_ocl (vfind s id')) /\
  (forall id' k', P k' = true -> entry s' id' k' = if (id =? id') && same_key k k' then e else entry s id' k').

Lemma data_ok s id vs d e k : winv s -> vfind s id = Some vs -> P k = true -> ktwf d ->
  (forall k', P k' = true -> kget d k' = if same_key k k' then e else kget (vs_data vs) k') ->
  stores s id k e (vupd s id (set_data vs d)) /\ st_out (vupd s id (set_data vs d)) = st_out s.
Proof.
  intros W HV Hk HT HG. split; auto. assert (W' : winv (vupd s id (set_data vs d))) by (apply winv_vupd; auto).
  assert (HN : vfind s id <> None) by congruence.
  split; [auto|]. split; [auto|]. split; [|split].
  - intro id'. rewrite vfind_vupd by auto. destruct (id =? id') eqn:E; auto. assert (id = id') by lia. subst. rewrite HV. auto.
  - intro id'. rewrite vfind_vupd by auto. destruct (id =? id') eqn:E; auto. assert (id = id') by lia. subst. rewrite HV. auto.
  - intros id' k' Hk'. rewrite !entry_kget by auto. rewrite vfind_vupd by auto. destruct (id =? id') eqn:E; auto.
    assert (id = id') by lia. subst. rewrite HV. cbn [andb set_data vs_data]. apply HG. auto.
Qed.
Lemma vstore_ok s id vs k e : winv s -> vfind s id = Some vs -> P k = true ->
  exists s', vstore s id vs k e = Ok s' /\ stores s id k (Some e) s' /\ st_out s' = st_out s.
Proof.
  intros W HV Hk. pose proof (wi_t s W _ _ HV) as HT. unfold vstore. rewrite (rset_pset _ _ _ G) by auto. cbn [bind].
  eexists. split; [reflexivity|]. apply data_ok; auto; [apply (twf_set _ _ _ G); auto|]. intros k' Hk'.
  rewrite (get_set _ _ _ (good_k _ _ _ G)) by apply HT. rewrite (keqb_in _ _ _ G); auto.
Qed.
Lemma vremove_ok s id vs k : winv s -> vfind s id = Some vs -> P k = true ->
  exists s', vremove s id vs k = Ok s' /\ stores s id k None s' /\ st_out s' = st_out s.
Proof.
  intros W HV Hk. pose proof (wi_t s W _ _ HV) as HT. unfold vremove. rewrite (rremove_premove _ _ _ G) by auto. cbn [bind].
  eexists. split; [reflexivity|]. apply data_ok; auto; [apply (twf_remove _ _ _ G); auto|]. intros k' Hk'.
  rewrite (get_remove _ _ _ (good_k _ _ _ G)) by apply HT. rewrite (keqb_in _ _ _ G); auto.
Qed.
(** In a bucket without two equal keys, replacing the first match replaces all of them. *)
Lemma rupd_map k e l : P k = true -> Forall (fun x : obj * velem => P (fst x) = true) l -> NoDupK (keqb P) l ->
  rupd k e l = Ok (map (fun x => if kcmp P k (fst x) =? 0 then (fst x, e) else x) l).
Proof.
  intros Hk HF HN. induction l as [|x l IH]; auto. inversion HF; subst. destruct HN as [HN1 HN2]. cbn [rupd map].
  rewrite (kcmp_in _ _ _ G) by auto. cbn [bind]. destruct (kcmp P k (fst x) =? 0) eqn:E.
  - f_equal. f_equal. symmetry. rewrite <- (map_id l) at 2. apply map_ext_in. intros y Hy.
    destruct (kcmp P k (fst y) =? 0) eqn:E2; auto. exfalso.
    pose proof (good_k _ _ _ G) as ((_ & Gs & Gt) & _). fold (keqb P k (fst x)) in E. fold (keqb P k (fst y)) in E2.
    assert (HT : keqb P (fst x) (fst y) = true) by (apply (Gt _ k); auto; rewrite Gs; auto). rewrite (HN1 y Hy) in HT. discriminate.
  - rewrite IH by auto. auto.
Qed.
Lemma bucket_nodup (d : pdict obj velem) h : NoDupK (keqb P) (pentries d) -> NoDupK (keqb P) (nth h d []).
Proof.
  intro HN. destruct (Nat.lt_ge_cases h (length d)) as [Hl|Hl]; [|rewrite nth_overflow by auto; exact I].
  destruct (nth_split d [] Hl) as (l1 & l2 & Ed & _). unfold pentries in HN. rewrite Ed, concat_app in HN. cbn [concat] in HN.
  apply (NoDupK_app (keqb P)) in HN as (_ & HN & _). apply (NoDupK_app (keqb P)) in HN as (HN & _); auto.
Qed.
Lemma voverwrite_ok s id vs k e e0 : winv s -> vfind s id = Some vs -> P k = true -> entry s id k = Some e0 ->
  exists s', voverwrite s id vs k e = Ok s' /\ stores s id k (Some e) s' /\ st_out s' = st_out s.
Proof.
  intros W HV Hk He. pose proof (wi_t s W _ _ HV) as HT. destruct HT as (Hz & HW & HK). unfold voverwrite.
  rewrite (tslot _ _ _ G) by auto. cbn [bind].
  rewrite rupd_map; auto; [|apply bucket_keys; auto|apply bucket_nodup; apply HW]. cbn [bind].
  change (upd (vs_data vs) _ _) with (kmod (vs_data vs) k (fun _ => e)).
  eexists. split; [reflexivity|]. apply data_ok; auto.
  - split; [|split].
    + unfold pmodify, zlen. rewrite upd_length. auto.
    + apply (wf_modify _ _ _ (good_k _ _ _ G)); auto.
    + unfold pmodify. apply keys_upd; auto. apply Forall_forall. intros x Hx. apply in_map_iff in Hx as (y & <- & Hy).
      pose proof (bucket_keys P (vs_data vs) (pslot (khash obj_hash P) (vs_data vs) k) HK) as HB. rewrite Forall_forall in HB. apply HB in Hy.
      destruct (_ =? 0); auto.
  - intros k' Hk'. rewrite (get_modify _ _ _ (good_k _ _ _ G)) by auto. rewrite (keqb_in _ _ _ G) by auto.
    destruct (same_key k k') eqn:E; auto. rewrite (entry_cong s id k k'), entry_kget, HV in He by auto. rewrite He. auto.
Qed.

(** ** Announcing *)
Definition said (s : vstate) (put : bool) (id : Z) (k : obj) (e : velem) (s' : vstate) : Prop :=
  st_robot s' = st_robot s /\ st_vstigs s' = st_vstigs s /\ winv s' /\
  forall id' k', P k' = true ->
    cur_of (st_out s') id' k' = upd_newest id' k' (OVstig put id k e) [] (cur_of (st_out s) id' k').
Lemma oinv_of s : winv s -> oinv fl sidof 0 (st_out s).
Proof.
  intro W. split; [apply W|]. destruct (wi_o s W) as (_ & H1 & H2 & H3).
  constructor; rewrite ?H1, ?H2, ?H3; auto using NoDup_nil.
Qed.
Lemma u0 : 0 <= 0 < 65536. Proof. lia. Qed.
Lemma vsay_ok s put id k e : winv s -> P k = true -> exists s', vsay s put id k e = Ok s' /\ said s put id k e s'.
Proof.
  intros W Hk. unfold vsay.
  destruct (append_vstig_ok fl sidof (st_out s) put id k e (wi_q s W) Hk) as (q' & E & V' & E1 & E2 & E3 & E4 & _).
  rewrite E. cbn [bind]. eexists. split; [reflexivity|]. split; [auto|]. split; [auto|].
  assert (W' : winv (set_out s q')).
  { destruct W as [W1 W2 W3 W4]. constructor; cbn [set_out st_vstigs st_out]; auto. rewrite E1, E2, E3, E4. auto. }
  split; auto. intros id' k' Hk'. cbn [set_out st_out].
  apply (newest_step fl sidof 0 u0 (st_out s) (OVstig put id k e) q' []); auto.
  - apply oinv_of; auto.
  - cbn [oq_step]. rewrite E. auto.
  - apply (oinv_of _ W').
Qed.
Lemma said_entry s put id k e s' id' k' : said s put id k e s' -> entry s' id' k' = entry s id' k'.
Proof. intros (_ & H & _). unfold entry, vfind. rewrite H. auto. Qed.
Lemma said_find s put id k e s' id' : said s put id k e s' -> vfind s' id' = vfind s id'.
Proof. intros (_ & H & _). unfold vfind. rewrite H. auto. Qed.
Lemma said_winv s put id k e s' : said s put id k e s' -> winv s'.
Proof. intros (_ & _ & H & _). auto. Qed.

(** ** Effect of each operation on the entries and on the queue *)
Definition say (id : Z) (k : obj) (put : bool) (e : velem) (id' : Z) (k' : obj) (c : option omsg) : option omsg :=
  upd_newest id' k' (OVstig put id k e) [] c.
Record effect (s : vstate) (ch : option (Z * obj * option velem)) (msg : option (bool * Z * obj * velem)) (s' : vstate) : Prop := {
  ef_w : winv s';
  ef_r : st_robot s' = st_robot s;
  ef_oc : forall id, option_map vs_oc (vfind s' id) = option_map vs_oc (vfind s id);
  ef_ocl : forall id, option_map vs_ocl (vfind s' id) = option_map vs_ocl (vfind s id);
  ef_e : forall id' k', P k' = true -> entry s' id' k' =
           match ch with
           | Some (id, k, e) => if (id =? id') && same_key k k' then e else entry s id' k'
           | None => entry s id' k'
           end;
  ef_q : forall id' k', P k' = true -> cur_of (st_out s') id' k' =
           match msg with
           | Some (put, id, k, e) => say id k put e id' k' (cur_of (st_out s) id' k')
           | None => cur_of (st_out s) id' k'
           end
}.
Lemma effect_none s : winv s -> effect s None None s.
Proof. intro W. constructor; auto. Qed.
Lemma effect_say s put id k e s' : said s put id k e s' -> effect s None (Some (put, id, k, e)) s'.
Proof.
  intro S. pose proof S as (H1 & H2 & H3 & H4). constructor; auto.
  - intro id0. rewrite (said_find _ _ _ _ _ _ _ S). auto.
  - intro id0. rewrite (said_find _ _ _ _ _ _ _ S). auto.
  - intros. eapply said_entry; eauto.
Qed.
Lemma effect_store_say s s1 put id k ke e s' : stores s id k ke s1 -> st_out s1 = st_out s -> said s1 put id k e s' ->
  effect s (Some (id, k, ke)) (Some (put, id, k, e)) s'.
Proof.
  intros (A1 & A2 & A3 & A4 & A5) HO S. pose proof S as (H1 & H2 & H3 & H4). constructor; auto.
  - congruence.
  - intro id0. rewrite (said_find _ _ _ _ _ _ _ S). auto.
  - intro id0. rewrite (said_find _ _ _ _ _ _ _ S). auto.
  - intros. rewrite (said_entry _ _ _ _ _ _ _ _ S). auto.
  - intros. rewrite <- HO. apply H4. auto.
Qed.
Lemma effect_say_store s s1 put id k ke e s' : said s put id k e s1 -> stores s1 id k ke s' -> st_out s' = st_out s1 ->
  effect s (Some (id, k, ke)) (Some (put, id, k, e)) s'.
Proof.
  intros S (A1 & A2 & A3 & A4 & A5) HO. pose proof S as (H1 & H2 & H3 & H4). constructor; auto.
  - congruence.
  - intro id0. rewrite <- (said_find _ _ _ _ _ _ _ S). auto.
  - intro id0. rewrite <- (said_find _ _ _ _ _ _ _ S). auto.
  - intros. rewrite <- (said_entry _ _ _ _ _ _ _ _ S). auto.
  - intros. rewrite HO. apply H4. auto.
Qed.

Lemma put_ok s id k v : winv s -> P k = true -> exists s', vs_put s id k v = Ok s' /\
  match vfind s id with
  | None => s' = s
  | Some _ =>
      match entry s id k with
      | Some e => let y := {| ve_data := v; ve_ts := wrap16 (ve_ts e + 1); ve_robot := st_robot s |} in
                  effect s (Some (id, k, if is_nil v then None else Some y)) (Some (true, id, k, y)) s'
      | None => if is_nil v then s' = s else
                let y := {| ve_data := v; ve_ts := 1; ve_robot := st_robot s |} in
                effect s (Some (id, k, Some y)) (Some (true, id, k, y)) s'
      end
  end.
Proof.
  intros W Hk. unfold vs_put. destruct (vfind s id) as [vs|] eqn:HV; [|eauto].
  rewrite (vfetch_ok s id vs k W HV Hk). cbn [bind]. destruct (entry s id k) as [e|] eqn:He.
  - destruct (is_nil v) eqn:Ev; cbn [negb].
    + assert (v = ONil) by (destruct v; try discriminate; auto). subst v.
      destruct (vsay_ok s true id k {| ve_data := ONil; ve_ts := wrap16 (ve_ts e + 1); ve_robot := st_robot s |} W Hk) as (s1 & E1 & S1).
      rewrite E1. cbn [bind]. pose proof (said_winv _ _ _ _ _ _ S1) as W1. assert (HV1 : vfind s1 id = Some vs) by (rewrite (said_find _ _ _ _ _ _ _ S1); auto).
      destruct (vremove_ok s1 id vs k W1 HV1 Hk) as (s2 & E2 & S2 & HO). exists s2. split; auto. eapply effect_say_store; eauto.
    + destruct (voverwrite_ok s id vs k {| ve_data := v; ve_ts := wrap16 (ve_ts e + 1); ve_robot := st_robot s |} e W HV Hk He) as (s1 & E1 & S1 & HO).
      rewrite E1. cbn [bind]. destruct (vsay_ok s1 true id k {| ve_data := v; ve_ts := wrap16 (ve_ts e + 1); ve_robot := st_robot s |} (proj1 S1) Hk) as (s2 & E2 & S2).
      exists s2. split; auto. eapply effect_store_say; eauto.
  - destruct (is_nil v) eqn:Ev; cbn [negb]; [eauto|].
    destruct (vstore_ok s id vs k {| ve_data := v; ve_ts := 1; ve_robot := st_robot s |} W HV Hk) as (s1 & E1 & S1 & HO).
    rewrite E1. cbn [bind]. destruct (vsay_ok s1 true id k {| ve_data := v; ve_ts := 1; ve_robot := st_robot s |} (proj1 S1) Hk) as (s2 & E2 & S2).
    exists s2. split; auto. eapply effect_store_say; eauto.
Qed.
Lemma get_ok s id k : winv s -> P k = true -> exists s', vs_get s id k = Ok (s', match entry s id k with Some e => ve_data e | None => ONil end) /\
  match vfind s id with
  | None => s' = s
  | Some _ => effect s None (Some (false, id, k, match entry s id k with Some e => e | None => {| ve_data := ONil; ve_ts := 0; ve_robot := st_robot s |} end)) s'
  end.
Proof.
  intros W Hk. unfold vs_get. destruct (vfind s id) as [vs|] eqn:HV.
  2:{ exists s. split; auto. unfold entry. rewrite HV. auto. }
  rewrite (vfetch_ok s id vs k W HV Hk). cbn [bind]. destruct (entry s id k) as [e|] eqn:He.
  - destruct (vsay_ok s false id k e W Hk) as (s1 & E1 & S1). rewrite E1. cbn [bind]. eexists. split; [reflexivity|]. apply effect_say; auto.
  - destruct (vsay_ok s false id k {| ve_data := ONil; ve_ts := 0; ve_robot := st_robot s |} W Hk) as (s1 & E1 & S1).
    rewrite E1. cbn [bind]. eexists. split; [reflexivity|]. apply effect_say; auto.
Qed.

(** Decision taken on a received entry. *)
Inductive verdict := Ignore | Accept (e : velem) | Forward (put : bool) (e : velem).
Definition judge (vs : vstig) (k : obj) (x : option velem) (put : bool) (v : velem) : verdict :=
  match x with
  | None => if put || negb (is_nil (ve_data v)) then Accept v else Forward false v
  | Some l =>
      if ve_ts l <? ve_ts v then Accept v
      else if (ve_ts l =? ve_ts v) && negb (ve_robot l =? ve_robot v) then
        match resolve vs k l v with Some c => Accept c | None => Ignore end
      else if negb put && (ve_ts l >? ve_ts v) then Forward true l else Ignore
  end.
Definition verdict_effect (s : vstate) (id : Z) (k : obj) (d : verdict) (s' : vstate) : Prop :=
  match d with
  | Ignore => s' = s
  | Accept e => effect s (Some (id, k, Some e)) (Some (true, id, k, e)) s'
  | Forward put e => effect s None (Some (put, id, k, e)) s'
  end.
Lemma accept_ok s id vs k v : winv s -> vfind s id = Some vs -> P k = true ->
  exists s1 s2, vstore s id vs k v = Ok s1 /\ vsay s1 true id k v = Ok s2 /\ effect s (Some (id, k, Some v)) (Some (true, id, k, v)) s2.
Proof.
  intros W HV Hk. destruct (vstore_ok s id vs k v W HV Hk) as (s1 & E1 & S1 & HO).
  destruct (vsay_ok s1 true id k v (proj1 S1) Hk) as (s2 & E2 & S2). exists s1, s2. splits; auto. eapply effect_store_say; eauto.
Qed.
Lemma conflict_ok s id vs k l v : winv s -> vfind s id = Some vs -> P k = true ->
  exists s' ls, vconflict s id vs k l v = Ok (s', ls) /\
    verdict_effect s id k (match resolve vs k l v with Some c => Accept c | None => Ignore end) s' /\
    ls = match resolve vs k l v with
         | Some c => if negb (ve_robot c =? st_robot s) && (ve_robot l =? st_robot s) && vs_ocl vs then [(id, k, l)] else []
         | None => [] end.
Proof.
  intros W HV Hk. unfold vconflict. destruct (resolve vs k l v) as [c|].
  - destruct (accept_ok s id vs k c W HV Hk) as (s1 & s2 & -> & E2 & EF). cbn [bind]. rewrite E2. cbn [bind]. eauto.
  - exists s, []. cbn. auto.
Qed.
Definition recv (s : vstate) (put : bool) (id : Z) (k : obj) (v : velem) := if put then recv_put s id k v else recv_query s id k v.
Lemma recv_ok s put id k v : winv s -> P k = true -> exists s' ls, recv s put id k v = Ok (s', ls) /\
  match vfind s id with
  | None => if put then s' = s else effect s None (Some (false, id, k, v)) s'
  | Some vs => verdict_effect s id k (judge vs k (entry s id k) put v) s'
  end.
Proof.
  intros W Hk. unfold recv, recv_put, recv_query. destruct (vfind s id) as [vs|] eqn:HV.
  2:{ destruct put; [eauto|]. destruct (vsay_ok s false id k v W Hk) as (s1 & -> & S1). cbn [bind]. do 2 eexists. split; [reflexivity|].
      apply effect_say; auto. }
  rewrite (vfetch_ok s id vs k W HV Hk). cbn [bind]. destruct (accept_ok s id vs k v W HV Hk) as (s1 & s2 & E1 & E2 & EF).
  unfold judge. destruct (entry s id k) as [l|] eqn:He.
  - destruct (ve_ts l <? ve_ts v) eqn:Elt.
    { destruct put; cbn [bind]; rewrite E1; cbn [bind]; rewrite E2; cbn [bind]; do 2 eexists; (split; [reflexivity|auto]). }
    destruct ((ve_ts l =? ve_ts v) && negb (ve_robot l =? ve_robot v)) eqn:Ec.
    { destruct (conflict_ok s id vs k l v W HV Hk) as (s' & ls & E & EV & _).
      destruct put; cbn [bind]; [eauto|]. replace (ve_ts l >? ve_ts v) with false by lia. eauto. }
    destruct put; cbn [bind negb andb]; [do 2 eexists; split; [reflexivity|reflexivity]|].
    destruct (ve_ts l >? ve_ts v) eqn:Egt.
    + destruct (vsay_ok s true id k l W Hk) as (s3 & E3 & S3). rewrite E3. cbn [bind]. do 2 eexists. split; [reflexivity|]. apply effect_say; auto.
    + do 2 eexists; split; [reflexivity|reflexivity].
  - destruct put; cbn [bind orb].
    + rewrite E1; cbn [bind]; rewrite E2; cbn [bind]; do 2 eexists; (split; [reflexivity|auto]).
    + destruct (is_nil (ve_data v)) eqn:En; cbn [negb].
      * destruct (vsay_ok s false id k v W Hk) as (s3 & E3 & S3). rewrite E3. cbn [bind]. do 2 eexists. split; [reflexivity|]. apply effect_say; auto.
      * rewrite E1; cbn [bind]; rewrite E2; cbn [bind]; do 2 eexists; (split; [reflexivity|auto]).
Qed.

(** ** Every history *)
Lemma create_ok s id : winv s -> winv (vs_create s id) /\
  (forall id', vfind (vs_create s id) id' = if id =? id' then Some vstig_new else vfind s id').
Proof.
  intro W. assert (HF : forall id', vfind (vs_create s id) id' = if id =? id' then Some vstig_new else vfind s id').
  { intro id'. unfold vs_create, vfind. cbn [st_vstigs]. rewrite (get_set _ _ _ good_u).
    - destruct (id =? id') eqn:E; auto. destruct (uget (st_vstigs s) id); auto. rewrite (get_remove _ _ _ good_u), E by apply W. auto.
    - destruct (uget (st_vstigs s) id); [apply (wf_remove _ _ _ good_u)|]; apply W. }
  split; auto. constructor; try apply W.
  - unfold vs_create. cbn [st_vstigs]. apply (wf_set _ _ _ good_u). destruct (vfind s id); [apply (wf_remove _ _ _ good_u)|]; apply W.
  - intros id' vs. rewrite HF. destruct (id =? id'); [|apply W]. intro H. inversion H; subst. apply (twf_new _ _ _ G).
Qed.
Lemma mgr_ok s id vs' vs : winv s -> vfind s id = Some vs -> vs_data vs' = vs_data vs -> winv (vupd s id vs') /\
  (forall id' k', P k' = true -> entry (vupd s id vs') id' k' = entry s id' k').
Proof.
  intros W HV HD. assert (W' : winv (vupd s id vs')) by (apply winv_vupd; auto; rewrite HD; eapply W; eauto). split; auto.
  intros id' k' Hk'. rewrite !entry_kget by auto. rewrite vfind_vupd by (auto; congruence).
  destruct (id =? id') eqn:E; auto. assert (id = id') by lia. subst. rewrite HV, HD. auto.
Qed.
Lemma send_ok s : winv s -> exists q l, oq_step (st_out s) OSend = Ok (q, l) /\ winv (set_out s q) /\
  pending (st_out s) = l ++ pending q /\ (length l <= 1)%nat /\
  (forall id k, P k = true -> cur_of q id k = if existsb (about id k) l then None else cur_of (st_out s) id k).
Proof.
  intro W. pose proof (oinv_of s W) as I. destruct (step_ok fl sidof 0 u0 (st_out s) OSend I Logic.I) as (q & l & E & I').
  exists q, l. split; auto. destruct (step_send fl sidof 0 _ _ _ I E) as [HP HL].
  assert (W' : winv (set_out s q)).
  { constructor; cbn [set_out st_vstigs st_out]; try apply W; [apply I'|].
    destruct (wi_o s W) as (H1 & H2 & H3 & H4). cbn [oq_step] in E. unfold oq_next in E. rewrite H1, H2, H3, H4 in E.
    destruct (o_put (st_out s)); [destruct (o_query (st_out s))|]; apply bind_ok in E as (q1 & E1 & E); inversion E; subst.
    - inversion E1; subst. auto.
    - apply bind_ok in E1 as (d & _ & E1). inversion E1; subst. cbn. auto.
    - apply bind_ok in E1 as (d & _ & E1). inversion E1; subst. cbn. auto. }
  split; auto. split; auto. split; auto. intros id k Hk.
  apply (newest_step fl sidof 0 u0 (st_out s) OSend q l id k I Logic.I Hk E I').
Qed.
Lemma vstep_ok s o : winv s -> vop_ok fl sidof o -> exists s' r, vstep s o = Ok (s', r) /\ winv s'.
Proof.
  intros W Ho. destruct o as [id|id k v|id k|id|id f|id|m|]; cbn [vstep].
  - do 2 eexists. split; [reflexivity|]. apply create_ok; auto.
  - destruct (put_ok s id k v W Ho) as (s' & -> & HE). cbn [bind]. do 2 eexists. split; [reflexivity|].
    destruct (vfind s id); [|subst; auto]. destruct (entry s id k); [apply (ef_w _ _ _ _ HE)|].
    destruct (is_nil v); [subst; auto|apply (ef_w _ _ _ _ HE)].
  - destruct (get_ok s id k W Ho) as (s' & -> & HE). cbn [bind]. do 2 eexists. split; [reflexivity|].
    destruct (vfind s id); [|subst; auto]. apply (ef_w _ _ _ _ HE).
  - eauto.
  - do 2 eexists. split; [reflexivity|]. unfold vs_onconflict. destruct (vfind s id) eqn:E; auto. eapply mgr_ok; eauto.
  - do 2 eexists. split; [reflexivity|]. unfold vs_onconflictlost. destruct (vfind s id) eqn:E; auto. eapply mgr_ok; eauto.
  - assert (HR : forall put id k v, P k = true -> exists s' r, ('(s'0, l) <- recv s put id k v;; Ok (s'0, RLost l)) = Ok (s', r) /\ winv s').
    { intros put id k v Hk. destruct (recv_ok s put id k v W Hk) as (s' & ls & -> & HE). cbn [bind]. do 2 eexists. split; [reflexivity|].
      destruct (vfind s id).
      - destruct (judge _ _ _ _ _); cbn in HE; [subst; auto|apply (ef_w _ _ _ _ HE)|apply (ef_w _ _ _ _ HE)].
      - destruct put; [subst; auto|apply (ef_w _ _ _ _ HE)]. }
    destruct m; cbn [vrecv bind]; try (do 2 eexists; split; [reflexivity|auto]).
    + apply (HR true); auto.
    + apply (HR false); auto.
  - destruct (send_ok s W) as (q & l & -> & W' & _). cbn [bind]. eauto.
Qed.
Lemma vrun_ok ops : forall s, winv s -> Forall (vop_ok fl sidof) ops -> exists s' rs, vrun s ops = Ok (s', rs) /\ winv s'.
Proof.
  induction ops as [|o ops IH]; intros s W HF; cbn [vrun]; [eauto|]. inversion HF; subst.
  destruct (vstep_ok s o W) as (s1 & r & -> & W1); auto. cbn [bind]. destruct (IH s1 W1) as (s2 & rs & -> & W2); auto. cbn [bind]. eauto.
Qed.
Lemma reachable_winv s : reachable fl sidof s -> winv s.
Proof.
  intros (r & ops & outs & HF & E). destruct (vrun_ok ops (vst_new r) (winv_new r) HF) as (s' & rs & E' & W). rewrite E' in E. inversion E; subst. auto.
Qed.
End V.
