From Verif Require Import Base ListLemmas Float Dict PDict DictSpec DictProofs PDictKeys Strman StrmanSpec StrmanProofs
  Msg MsgProofs FloatProofs Obj Wire WireSpec WireProofs WireTotal Messages MessagesSpec.

Lemma keeps_refl sm : keeps sm sm. Proof. intros i t _ H. exact H. Qed.
Lemma keeps_trans a b c : keeps a b -> keeps b c -> keeps a c.
Proof. intros H1 H2 i t Hi H. auto. Qed.
Lemma wlive_keeps sm sm' w : keeps sm sm' -> wlive sm w -> wlive sm' w.
Proof.
  intro K. induction w using wobj_ind'; intro H0; inversion H0; subst; try constructor; auto.
  rewrite Forall_forall in *. intros e He. destruct (H e He) as [Ha Hb]. destruct (H2 e He). auto.
Qed.

Lemma reg_string_keeps sm s k : 0 <= k -> sm_good sm (k + 1) ->
  exists id sm', reg_string sm s = Ok (WStr id s, sm') /\ 0 <= id < 65536 /\ sm_good sm' k /\ sm_get sm' id = Some s /\ keeps sm sm' /\
    (forall id0, 0 <= id0 < 65536 -> sm_get sm id0 = Some s -> id = id0).
Proof.
  intros Hk G. destruct (reg_string_ok sm s k Hk G) as (id & sm' & E & Hi & G'). exists id, sm'. split; [auto|]. split; [auto|]. split; [auto|].
  destruct G as (M & HI & HD & HL). unfold reg_string in E. destruct (register_ok sm M s false HI HD ltac:(lia)) as (sm1 & id1 & M' & ER & (id' & EI & HR & HS) & HI' & HD').
  rewrite ER in E. cbn [bind] in E. destruct (sm_get sm1 id1) as [t|] eqn:EG; inversion E; subst. inversion EI; subst id'.
  assert (HG : forall M1 sm1, SInv sm1 M1 -> forall i t, 0 <= i < 65536 -> (sm_get sm1 i = Some t <-> exists q, M1 t = Some (i, q))).
  { intros M1 sm1 H1 i t Hi1. destruct (get_ok sm1 M1 i H1 Hi1) as [(r & ER1 & HH) _]. inversion ER1; subst. apply HH. }
  assert (HK : forall t i q, M t = Some (i, q) -> exists q', M' t = Some (i, q')).
  { intros t i q Ht. destruct (M s) as [[i0 q0]|] eqn:EM; destruct HS as [HS1 HM']; rewrite HM'; unfold lm_set; destruct (str_dec t s); subst; eauto; rewrite EM in Ht; inversion Ht; subst; eauto. }
  split; [auto|]. split.
  - intros i t Hi1 Ht. apply (HG _ _ HI) in Ht as [q Ht]; auto. apply (HG _ _ HI'); auto. eauto.
  - intros id0 Hi0 H0. apply (HG _ _ HI) in H0 as [q H0]; auto. apply (HG _ _ HI') in EG as [q' EG]; auto. destruct (HK _ _ _ H0) as [q2 H2]. congruence.
Qed.

Lemma rdel_in {K V} (cmpf : K -> K -> res Z) k (l l' : list (K * V)) : rdel cmpf k l = Ok l' -> forall e, In e l' -> In e l.
Proof.
  revert l'. induction l as [|e l IH]; intros l' H x Hx; cbn in H. { inversion H; subst. auto. }
  destruct (cmpf k (fst e)); cbn in H; try discriminate. destruct (_ =? 0). { inversion H; subst. right. auto. }
  destruct (rdel cmpf k l); cbn in H; inversion H; subst. destruct Hx as [<- | Hx]; [left; auto|right; eapply IH; eauto].
Qed.
Lemma concat_upd_in {A} (t : list (list A)) h (b : list A) x : In x (concat (upd t h b)) -> In x b \/ In x (concat t).
Proof.
  revert h. induction t as [|a t IH]; intros h H; [destruct h; cbn in H; auto|]. destruct h as [|h]; cbn [upd concat] in *; apply in_app_or in H as [H|H].
  - auto. 
  - right. apply in_or_app. auto.
  - right. apply in_or_app. auto.
  - destruct (IH h H); auto. right. apply in_or_app. auto.
Qed.
Lemma rset_in (t t' : pdict wobj wobj) k v e : rset whash wcmp t k v = Ok t' -> In e (concat t') -> e = (k, v) \/ In e (concat t).
Proof.
  unfold rset, rslot. destruct (whash k) as [h| | |]; cbn [bind]; try discriminate. set (n := Z.to_nat _).
  destruct (rdel wcmp k (nth n t [])) as [l| | |] eqn:E; cbn [bind]; try discriminate. intro H. inversion H; subst t'. intro Hin.
  apply concat_upd_in in Hin as [Hin|Hin]; auto. apply in_app_or in Hin as [Hin|[<- | []]]; auto. right.
  apply (rdel_in _ _ _ _ E) in Hin. destruct (Nat.lt_ge_cases n (length t)) as [Hn|Hn].
  - apply in_concat. exists (nth n t []). split; auto. apply nth_In. auto.
  - rewrite nth_overflow in Hin by lia. destruct Hin.
Qed.

(** ** What reading an object does to the strings *)
Definition okstr (sm : strman) (r : res (option (wobj * Z) * strman)) : Prop :=
  forall o sm', r = Ok (o, sm') -> keeps sm sm' /\ forall w p, o = Some (w, p) -> wlive sm' w.
Lemma okstr_none sm : okstr sm (Ok (None, sm)).
Proof. intros o sm' H. inversion H; subst. split; [apply keeps_refl|]. discriminate. Qed.
Lemma okstr_some sm w p : wlive sm w -> okstr sm (Ok (Some (w, p), sm)).
Proof. intros HW o sm' H. inversion H; subst. split; [apply keeps_refl|]. intros w0 p0 E. inversion E; subst. auto. Qed.
Lemma de_entries_str f buf :
  (forall pos sm, 0 <= pos <= zlen buf -> zlen buf - pos < Z.of_nat f -> sm_good sm (zlen buf - pos) ->
     okpos buf pos (obj_deser f buf pos sm)) ->
  (forall pos sm, 0 <= pos <= zlen buf -> zlen buf - pos < Z.of_nat f -> sm_good sm (zlen buf - pos) ->
     okstr sm (obj_deser f buf pos sm)) ->
  forall n t pos sm, 0 <= pos <= zlen buf -> zlen buf - pos < Z.of_nat f -> sm_good sm (zlen buf - pos) ->
  Forall (fun e => wlive sm (fst e) /\ wlive sm (snd e)) (concat t) -> okstr sm (de_entries f buf n t pos sm).
Proof.
  intros IB IH. induction n as [|n IHn]; intros t pos sm H1 Hf HS HT.
  - cbn. apply okstr_some. constructor. auto.
  - unfold de_entries; fold de_entries.
    pose proof (IB pos sm ltac:(lia) ltac:(lia) HS) as H. pose proof (IH pos sm ltac:(lia) ltac:(lia) HS) as HH. unfold okpos in H.
    destruct (obj_deser f buf pos sm) as [[[[k p1]|] sm1]| | |]; cbn [bind]; try (intros ? ? ?; discriminate).
    2:{ intros o sm' E. inversion E; subst. destruct (HH _ _ eq_refl). split; [auto|discriminate]. }
    destruct H as [Hp1 HS1]. destruct (HH _ _ eq_refl) as [K1 L1]. specialize (L1 _ _ eq_refl).
    pose proof (IB p1 sm1 ltac:(lia) ltac:(lia) HS1) as H. pose proof (IH p1 sm1 ltac:(lia) ltac:(lia) HS1) as HH2. unfold okpos in H.
    destruct (obj_deser f buf p1 sm1) as [[[[v p2]|] sm2]| | |]; cbn [bind]; try (intros ? ? ?; discriminate).
    2:{ intros o sm' E. inversion E; subst. destruct (HH2 _ _ eq_refl). split; [eapply keeps_trans; eauto|]. discriminate. }
    destruct H as [Hp2 HS2]. destruct (HH2 _ _ eq_refl) as [K2 L2]. specialize (L2 _ _ eq_refl).
    destruct (rset whash wcmp t k v) as [t'| | |] eqn:ET; cbn [bind]; try (intros ? ? ?; discriminate).
    assert (HT2 : Forall (fun e => wlive sm2 (fst e) /\ wlive sm2 (snd e)) (concat t')).
    { rewrite Forall_forall in *. intros e He. apply (rset_in _ _ _ _ _ ET) in He as [-> | He]; cbn [fst snd].
      - split; [exact (wlive_keeps _ _ _ K2 L1)|auto].
      - destruct (HT e He). split; (apply (wlive_keeps sm sm2); [exact (keeps_trans _ _ _ K1 K2)|auto]). }
    intros o sm' E. destruct (IHn t' p2 sm2 ltac:(lia) ltac:(lia) HS2 HT2 o sm' E) as [K3 L3]. split; [exact (keeps_trans _ _ _ (keeps_trans _ _ _ K1 K2) K3)|auto].
Qed.
Lemma deser_str buf : zlen buf < 2 ^ 32 - 65536 -> forall f pos sm,
  0 <= pos <= zlen buf -> zlen buf - pos < Z.of_nat f -> sm_good sm (zlen buf - pos) ->
  okstr sm (obj_deser f buf pos sm).
Proof.
  intro HB. induction f as [|f IH]; intros pos sm Hp Hf HS; [lia|].
  pose proof (de_u8_bounds buf pos ltac:(lia)) as H1.
  destruct (de_u8 buf pos) as [[[ty p]|]| | |] eqn:E1; cbn in H1; try tauto.
  2:{ cbn [obj_deser]. rewrite E1. cbn. apply okstr_none. }
  destruct (Z.eq_dec ty T_TABLE) as [->|Hty].
  - rewrite (obj_deser_tab f buf pos sm p E1).
    pose proof (de_u8_bounds buf p ltac:(lia)) as H2.
    destruct (de_u8 buf p) as [[[size p']|]| | |] eqn:E2; cbn in H2; try contradiction; cbn [bind]; [|apply okstr_none].
    apply de_entries_str; try lia; [|auto|eapply sm_good_mono; [|exact HS]; lia|].
    + intros pos' sm' Hp' Hf' HS'. apply deser_bounds; auto.
    + constructor.
  - cbn [obj_deser]. rewrite E1. cbn [bind].
    destruct (ty =? T_NIL); [apply okstr_some; constructor|].
    destruct (ty =? T_INT).
    { destruct (de_u32 buf p) as [[[z p']|]| | |]; cbn [bind]; try (intros ? ? ?; discriminate); [apply okstr_some; constructor|apply okstr_none]. }
    destruct (ty =? T_FLOAT).
    { destruct (de_float buf p) as [[[z p']|]| | |]; cbn [bind]; try (intros ? ? ?; discriminate); [apply okstr_some; constructor|apply okstr_none]. }
    destruct (ty =? T_STRING).
    { pose proof (de_string_bounds buf p ltac:(lia) HB) as H2.
      destruct (de_string buf p) as [[[s p']|]| | |]; cbn in H2; try contradiction; cbn [bind]; [|apply okstr_none].
      destruct (reg_string_keeps sm s (zlen buf - p')) as (id & sm' & E & Hi & G & HG & K & _); [lia|eapply sm_good_mono; [|exact HS]; lia|].
      rewrite E. cbn [bind]. intros o sm0 E0. inversion E0; subst. split; auto. intros w q Ew. inversion Ew; subst. constructor; auto. }
    destruct (ty =? T_TABLE) eqn:E; [lia|].
    destruct (ty =? T_CLOSURE).
    { destruct (de_u8 buf p) as [[[z p']|]| | |]; cbn [bind]; try (intros ? ? ?; discriminate); [|apply okstr_none].
      destruct (de_u32 buf p') as [[[z2 p2]|]| | |]; cbn [bind]; try (intros ? ? ?; discriminate); [apply okstr_some; constructor|apply okstr_none]. }
    destruct (ty =? T_USERDATA); cbn; [apply okstr_none|intros ? ? ?; discriminate].
Qed.

(** ** Round trip of messages *)
Lemma obj_rt w : wok w -> exists enc, 0 < zlen enc /\ (forall pre, obj_ser pre w = Ok (pre ++ enc)) /\
  forall pre post sm, zlen (pre ++ enc ++ post) < 2 ^ 32 - 65536 -> sm_good sm (zlen (enc ++ post)) ->
    exists w' sm', deser (pre ++ enc ++ post) (zlen pre) sm = Ok (Some (w', zlen (pre ++ enc)), sm') /\
      weq w w' /\ sm_good sm' (zlen post) /\ keeps sm sm' /\ wlive sm' w'.
Proof.
  intro HW. destruct (roundtrip w HW) as (enc & Hp & HS & HD). exists enc. split; [auto|]. split; [auto|].
  intros pre post sm HL HG. destruct (HD pre post (S (length (pre ++ enc ++ post))) sm) as (w' & sm' & E & HQ & HG'); auto.
  - lia.
  - rewrite !zlen_app in *. unfold zlen in *. rewrite !app_length. lia.
  - exists w', sm'. unfold deser. rewrite E. rewrite zlen_app. split; [auto|]. split; [auto|]. split; [auto|].
    destruct (deser_str (pre ++ enc ++ post) HL (S (length (pre ++ enc ++ post))) (zlen pre) sm) with (o := Some (w', zlen pre + zlen enc)) (sm' := sm') as [K L]; auto.
    + rewrite !zlen_app. pose proof (zlen_nonneg pre). pose proof (zlen_nonneg post). lia.
    + unfold zlen. rewrite !app_length. lia.
    + rewrite !zlen_app in *. eapply sm_good_mono; [|exact HG]. lia.
    + split; auto. eapply L. reflexivity.
Qed.
Lemma elem_rt k v ts r : wok k -> wok v -> u16 ts -> u16 r -> exists enc, (forall pre, elem_ser pre k v ts r = Ok (pre ++ enc)) /\
  forall pre sm, zlen (pre ++ enc) < 2 ^ 32 - 65536 -> sm_good sm (zlen enc) ->
    exists k' v' sm', elem_deser (pre ++ enc) (zlen pre) sm = Ok (Some (k', v', ts, r), sm') /\
      weq k k' /\ weq v v' /\ keeps sm sm' /\ wlive sm' k' /\ wlive sm' v'.
Proof.
  unfold u16. intros Hk Hv Ht Hr. destruct (obj_rt k Hk) as (ek & Pk & Sk & Dk). destruct (obj_rt v Hv) as (ev & Pv & Sv & Dv).
  exists (ek ++ ev ++ enc16 ts ++ enc16 r). split.
  - intro pre. unfold elem_ser. rewrite Sk. cbn [bind]. rewrite Sv. cbn [bind]. rewrite !ser_u16_enc by lia. rewrite <- !app_assoc. reflexivity.
  - intros pre sm HL HG. unfold elem_deser. destruct (Dk pre (ev ++ enc16 ts ++ enc16 r) sm HL HG) as (k' & sm1 & E1 & Q1 & G1 & K1 & L1).
    rewrite E1. cbn [bind]. destruct (Dv (pre ++ ek) (enc16 ts ++ enc16 r) sm1) as (v' & sm2 & E2 & Q2 & G2 & K2 & L2); auto.
    { rewrite <- app_assoc. auto. }
    rewrite <- app_assoc in E2. rewrite E2. cbn [bind].
    replace (pre ++ ek ++ ev ++ enc16 ts ++ enc16 r) with (((pre ++ ek) ++ ev) ++ enc16 ts ++ enc16 r) by (rewrite <- !app_assoc; auto).
    rewrite de_u16_enc by lia. cbn [bind].
    replace (zlen ((pre ++ ek) ++ ev) + 2) with (zlen (((pre ++ ek) ++ ev) ++ enc16 ts)) by (rewrite (zlen_app _ (enc16 ts)); reflexivity).
    replace (((pre ++ ek) ++ ev) ++ enc16 ts ++ enc16 r) with ((((pre ++ ek) ++ ev) ++ enc16 ts) ++ enc16 r ++ []) by (rewrite app_nil_r, <- !app_assoc; auto).
    rewrite de_u16_enc by lia. cbn [bind]. exists k', v', sm2. split; [auto|]. split; [auto|]. split; [auto|]. split; [eapply keeps_trans; eauto|]. split; [eapply wlive_keeps; eauto|auto].
Qed.
Lemma ids_enc ids : Forall u16 ids -> forall pre, fold_left ser_u16 ids pre = pre ++ concat (map enc16 ids).
Proof.
  induction 1 as [|i ids Hi Hl IH]; intro pre; cbn [fold_left map concat]. { rewrite app_nil_r. auto. }
  unfold u16 in Hi. rewrite ser_u16_enc by lia. rewrite IH, <- app_assoc. auto.
Qed.
Lemma de_ids_enc ids : Forall u16 ids -> forall pre, de_ids (length ids) (pre ++ concat (map enc16 ids)) (zlen pre) = Ok ids.
Proof.
  induction 1 as [|i ids Hi Hl IH]; intro pre; cbn [length de_ids map concat]; auto. unfold u16 in Hi. rewrite de_u16_enc by lia. cbn [bind].
  rewrite app_assoc. replace (zlen pre + 2) with (zlen (pre ++ enc16 i)) by (rewrite zlen_app; reflexivity). rewrite IH. reflexivity.
Qed.
Lemma good_run ops sm outs k : smhist_ok sm_new ops -> sm_run sm_new ops = Ok (sm, outs) -> sm_live sm + k < 65534 -> sm_good sm k.
Proof.
  intros Ho Hr HM. destruct SInv_new as [H1 H2]. destruct (sm_run_ok ops sm_new _ H1 H2 Ho) as (sm1 & outs1 & M & E & HT & HI & HId).
  rewrite E in Hr. inversion Hr; subst. exists M. splits; auto.
Qed.
Lemma byte0 b l : byte_at (b :: l) 0 = Ok b.
Proof. unfold byte_at. rewrite zlen_cons. pose proof (zlen_nonneg l). destruct (_ && _) eqn:E; [reflexivity|lia]. Qed.
Lemma de_u16_1 b x rest : 0 <= x < 65536 -> de_u16 (b :: enc16 x ++ rest) 1 = Ok (Some (x, 3)).
Proof. intro H. apply (de_u16_enc [b] rest x). lia. Qed.

(** An id names one string, and a string has one id. *)
Lemma sm_get_inj sm k i j s : sm_good sm k -> 0 <= i < 65536 -> 0 <= j < 65536 -> sm_get sm i = Some s -> sm_get sm j = Some s -> i = j.
Proof.
  intros (M & HI & _) Hi Hj H1 H2. destruct (get_ok sm M i HI Hi) as [(r & ER & HH) _]. destruct (get_ok sm M j HI Hj) as [(r' & ER' & HH') _].
  inversion ER; subst r. inversion ER'; subst r'. apply HH in H1 as [q H1]. apply HH' in H2 as [q' H2]. congruence.
Qed.
Lemma topic_read (listening has_vstig : Z -> bool) i s v : wok (WStr i s) -> wok v ->
  exists buf, enc_msg (WBroadcast (WStr i s) v) = Ok buf /\
  forall sm, zlen buf < 2 ^ 32 - 65536 -> sm_good sm (zlen buf) ->
    exists j sm1 v' sm2, 0 <= j < 65536 /\ sm_get sm1 j = Some s /\ keeps sm sm1 /\ sm_good sm1 0 /\
      weq v v' /\ wlive sm2 v' /\ keeps sm1 sm2 /\ sm_good sm2 0 /\
      recv listening has_vstig buf sm = if listening j then Ok (PMsg (WBroadcast (WStr j s) v'), sm2) else Ok (PIgnored, sm1).
Proof.
  intros Ht Hv. destruct (obj_rt _ Ht) as (et & Pt & St & Dt). destruct (obj_rt v Hv) as (ev & Pv & Sv & Dv). cbn [enc_msg].
  exists (([0] ++ et) ++ ev). split; [rewrite St; cbn [bind]; rewrite Sv; auto|]. intros sm HB HG. unfold recv.
  assert (E0 : byte_at (([0] ++ et) ++ ev) 0 = Ok 0) by apply byte0. rewrite E0. cbn [bind]. change (0 =? BUZZMSG_BROADCAST) with true. cbv iota.
  destruct (Dt [0] ev sm) as (t' & sm1 & E1 & Q1 & G1 & K1 & L1).
  { rewrite <- app_assoc in HB. auto. } { rewrite !zlen_app in *. eapply sm_good_mono; [|exact HG]. change (zlen [0]) with 1. lia. }
  assert (E1' : deser (([0] ++ et) ++ ev) 1 sm = Ok (Some (t', zlen ([0] ++ et)), sm1)) by (rewrite <- app_assoc; exact E1). rewrite E1'. cbn [bind]. inversion Q1; subst.
  destruct (Dv ([0] ++ et) [] sm1) as (v' & sm2 & E2 & Q2 & G2 & K2 & L2).
  { rewrite app_nil_r. auto. } { rewrite app_nil_r. auto. }
  rewrite app_nil_r in E2. inversion L1; subst. do 4 eexists. split; [eassumption|]. split; [eassumption|]. split; [eassumption|].
  split; [eapply sm_good_mono; [|exact G1]; apply zlen_nonneg|]. split; [exact Q2|]. split; [exact L2|]. split; [exact K2|]. split; [exact G2|].
  rewrite E2. reflexivity.
Qed.

Lemma msg_rt m listening has_vstig : msg_ok m ->
  (forall id k v ts r, m = WPut id k v ts r -> has_vstig id = true) ->
  exists buf, enc_msg m = Ok buf /\
  forall sm, zlen buf < 2 ^ 32 - 65536 -> sm_good sm (zlen buf) ->
    (forall i s v, m = WBroadcast (WStr i s) v -> exists j, 0 <= j < 65536 /\ sm_get sm j = Some s /\ listening j = true) ->
    exists m' sm', recv listening has_vstig buf sm = Ok (PMsg m', sm') /\ msg_eq m m' /\ keeps sm sm'.
Proof.
  intros HM HV. destruct m as [t v|ids|id k v ts r|id k v ts r|id|id]; cbn [msg_ok] in *.
  - destruct HM as ((i & s & ->) & Ht & Hv). destruct (topic_read listening has_vstig i s v Ht Hv) as (buf & EB & HD). exists buf. split; [auto|].
    intros sm HB HG HL. destruct (HD sm HB HG) as (j & sm1 & v' & sm2 & Hj & Gj & K1 & G1 & Q & L & K2 & G2 & ->).
    destruct (HL _ _ _ eq_refl) as (j0 & Hj0 & Gj0 & Lj0). rewrite (sm_get_inj sm1 0 j j0 s G1 Hj Hj0 Gj (K1 _ _ Hj0 Gj0)), Lj0.
    do 2 eexists. split; [reflexivity|]. split; [|exact (keeps_trans _ _ _ K1 K2)]. split; [constructor|auto].
  - cbn [enc_msg]. destruct HM as [Hn Hi]. eexists. split; [reflexivity|]. intros sm HB HG _. rewrite ids_enc in * by auto. rewrite (ser_u16_enc _ (zlen ids)) in * by lia.
    change (ser_u8 [] BUZZMSG_SWARM_LIST) with [1] in *. rewrite <- app_assoc in *. cbn [app] in *. unfold recv. rewrite byte0. cbn [bind].
    change (1 =? BUZZMSG_BROADCAST) with false. change ((1 =? BUZZMSG_VSTIG_PUT) || (1 =? BUZZMSG_VSTIG_QUERY)) with false. change (1 =? BUZZMSG_SWARM_LIST) with true. cbv iota.
    rewrite de_u16_1 by lia. cbn [bind]. replace (zlen ids <? 1) with false by lia.
    replace (Z.to_nat (zlen ids)) with (length ids) by (unfold zlen; lia).
    assert (ED : de_ids (length ids) (1 :: enc16 (zlen ids) ++ concat (map enc16 ids)) 3 = Ok ids) by exact (de_ids_enc ids Hi (1 :: enc16 (zlen ids))).
    rewrite ED. cbn [bind]. do 2 eexists. split; [reflexivity|]. split; [reflexivity|apply keeps_refl].
  - cbn [enc_msg]. destruct HM as (Hi & Hk & Hv & Ht & Hr). destruct (elem_rt k v ts r Hk Hv Ht Hr) as (enc & S1 & D1). unfold u16 in *. rewrite S1. rewrite ser_u16_enc by lia.
    eexists. split; [reflexivity|]. change (ser_u8 [] BUZZMSG_VSTIG_PUT) with [2]. intros sm HB HG _. unfold recv.
    assert (E0 : byte_at (([2] ++ enc16 id) ++ enc) 0 = Ok 2) by apply byte0. rewrite E0. cbn [bind]. change (2 =? BUZZMSG_BROADCAST) with false. change (2 =? BUZZMSG_VSTIG_PUT) with true. cbv iota. cbn [orb andb].
    assert (E1 : de_u16 (([2] ++ enc16 id) ++ enc) 1 = Ok (Some (id, 3))) by (rewrite <- app_assoc; apply de_u16_1; lia). rewrite E1. cbn [bind]. rewrite (HV _ _ _ _ _ eq_refl). cbn [negb].
    destruct (D1 ([2] ++ enc16 id) sm) as (k' & v' & sm' & E2 & Q1 & Q2 & K & _).
    { auto. } { eapply sm_good_mono; [|exact HG]. rewrite zlen_app. pose proof (zlen_nonneg ([2] ++ enc16 id)). lia. }
    change (zlen ([2] ++ enc16 id)) with 3 in E2. rewrite E2. cbn [bind]. do 2 eexists. split; [reflexivity|]. split; [cbn [msg_eq]; splits; auto|auto].
  - cbn [enc_msg]. destruct HM as (Hi & Hk & Hv & Ht & Hr). destruct (elem_rt k v ts r Hk Hv Ht Hr) as (enc & S1 & D1). unfold u16 in *. rewrite S1. rewrite ser_u16_enc by lia.
    eexists. split; [reflexivity|]. change (ser_u8 [] BUZZMSG_VSTIG_QUERY) with [3]. intros sm HB HG _. unfold recv.
    assert (E0 : byte_at (([3] ++ enc16 id) ++ enc) 0 = Ok 3) by apply byte0. rewrite E0. cbn [bind]. change (3 =? BUZZMSG_BROADCAST) with false. change (3 =? BUZZMSG_VSTIG_PUT) with false. change (3 =? BUZZMSG_VSTIG_QUERY) with true. cbv iota. cbn [orb andb].
    assert (E1 : de_u16 (([3] ++ enc16 id) ++ enc) 1 = Ok (Some (id, 3))) by (rewrite <- app_assoc; apply de_u16_1; lia). rewrite E1. cbn [bind].
    destruct (D1 ([3] ++ enc16 id) sm) as (k' & v' & sm' & E2 & Q1 & Q2 & K & _).
    { auto. } { eapply sm_good_mono; [|exact HG]. rewrite zlen_app. pose proof (zlen_nonneg ([3] ++ enc16 id)). lia. }
    change (zlen ([3] ++ enc16 id)) with 3 in E2. rewrite E2. cbn [bind]. do 2 eexists. split; [reflexivity|]. split; [cbn [msg_eq]; splits; auto|auto].
  - cbn [enc_msg]. unfold u16 in HM. rewrite ser_u16_enc by lia. eexists. split; [reflexivity|]. intros sm HB HG _. change (ser_u8 [] BUZZMSG_SWARM_JOIN) with [4]. cbn [app]. unfold recv. rewrite byte0. cbn [bind]. change (4 =? BUZZMSG_BROADCAST) with false. change (4 =? BUZZMSG_VSTIG_PUT) with false. change (4 =? BUZZMSG_VSTIG_QUERY) with false. change (4 =? BUZZMSG_SWARM_LIST) with false. change (4 =? BUZZMSG_SWARM_JOIN) with true. cbn [orb].
    pose proof (de_u16_1 4 id [] HM) as E. rewrite app_nil_r in E. rewrite E. cbn [bind]. do 2 eexists. split; [reflexivity|]. split; [reflexivity|apply keeps_refl].
  - cbn [enc_msg]. unfold u16 in HM. rewrite ser_u16_enc by lia. eexists. split; [reflexivity|]. intros sm HB HG _. change (ser_u8 [] BUZZMSG_SWARM_LEAVE) with [5]. cbn [app]. unfold recv. rewrite byte0. cbn [bind]. change (5 =? BUZZMSG_BROADCAST) with false. change (5 =? BUZZMSG_VSTIG_PUT) with false. change (5 =? BUZZMSG_VSTIG_QUERY) with false. change (5 =? BUZZMSG_SWARM_LIST) with false. change (5 =? BUZZMSG_SWARM_JOIN) with false. change (5 =? BUZZMSG_SWARM_LEAVE) with true. cbn [orb].
    pose proof (de_u16_1 5 id [] HM) as E. rewrite app_nil_r in E. rewrite E. cbn [bind]. do 2 eexists. split; [reflexivity|]. split; [reflexivity|apply keeps_refl].
Qed.
