From Verif Require Import Base ListLemmas Float Dict DictSpec PDict DictProofs PDictKeys BSet Strman StrmanSpec StrmanProofs Obj Heap HeapSpec HeapProofs.

Section Clone.
Variable malloc : list ptr -> ptr.
Hypothesis Hmal : good_malloc malloc.

(** ** Preservation of the invariant *)
Definition ext (h h' : heap) : Prop :=
  (exists l, h_objs h' = h_objs h ++ l) /\ (forall p, In p (h_objs h) -> h_mem h' p = h_mem h p) /\
  h_max h' = h_max h /\ h_marker h' = h_marker h /\ h_str h' = h_str h.
Lemma ext_refl h : ext h h.
Proof. unfold ext. splits; auto. exists []. rewrite app_nil_r; auto. Qed.
Lemma ext_in h h' p : ext h h' -> In p (h_objs h) -> In p (h_objs h').
Proof. intros ((l & ->) & _) H. apply in_or_app; auto. Qed.
Lemma ext_trans h1 h2 h3 : ext h1 h2 -> ext h2 h3 -> ext h1 h3.
Proof.
  intros A B. destruct A as ((l & A1) & A2 & A3 & A4 & A5). destruct B as ((l' & B1) & B2 & B3 & B4 & B5).
  unfold ext. splits; try congruence.
  - exists (l ++ l'). rewrite B1, A1, app_assoc. auto.
  - intros p Hp. rewrite B2, A2; auto. rewrite A1. apply in_or_app; auto.
Qed.

Lemma add_spec h k : HInv h -> (forall q, refers k q -> In q (h_objs h)) ->
  (forall i s, k = KStr i s -> exists p c, h_mem h p = Some c /\ c_kind c = KStr i s) ->
  let '(h', x) := h_add malloc h k (h_marker h) in
  HInv h' /\ ext h h' /\ ~ In x (h_objs h) /\ In x (h_objs h') /\ h_mem h' x = Some (mkCell k (h_marker h)).
Proof.
  intros HI HR HS. unfold h_add. set (x := malloc (h_objs h)). assert (Hx : ~ In x (h_objs h)) by apply Hmal.
  assert (HE : ext h (mkHeap (mset (h_mem h) x (Some (mkCell k (h_marker h)))) (h_objs h ++ [x]) (h_max h) (h_marker h) (h_str h))).
  { unfold ext. splits; cbn; eauto. intros p Hp. apply mset_other. intros ->; contradiction. }
  splits; auto; try (cbn; apply in_or_app; right; left; auto); try apply mset_same.
  constructor; cbn.
  - apply (Permutation_NoDup (l := x :: h_objs h)). { apply Permutation_cons_append. } constructor; auto. apply HI.
  - intro p. rewrite in_app_iff. unfold mset. destruct (p =? x) eqn:E.
    + assert (p = x) by lia. subst. split; [discriminate|]. intros _. right. left. auto.
    + rewrite (hi_dom h HI). split; [intros [H|[H|[]]]; [auto|lia]|auto].
  - intros p c. unfold mset. destruct (p =? x); [intro H; inversion H; auto|apply HI].
  - apply HI.
  - intros p c q. unfold mset. rewrite in_app_iff. destruct (p =? x); [intros H Hq; inversion H; subst; cbn in Hq; auto|].
    intros E Hq. left. eapply hi_refs; eauto.
  - destruct (hi_strs h HI) as (M & S1 & S2 & S3). exists M. splits; auto. intros p c i s. unfold mset. destruct (p =? x).
    + intros H Hk. inversion H; subst c. cbn in Hk. destruct (HS i s Hk) as (p0 & c0 & E0 & K0). eapply S3; eauto.
    + apply S3.
Qed.

Lemma store_spec h p bs bs0 mk : HInv h -> h_mem h p = Some (mkCell (KTab bs0) mk) -> (forall q, refers (KTab bs) q -> In q (h_objs h)) ->
  let h' := h_store h p (KTab bs) in
  HInv h' /\ h_mem h' p = Some (mkCell (KTab bs) mk) /\ h_objs h' = h_objs h /\ (forall q, q <> p -> h_mem h' q = h_mem h q) /\
  h_max h' = h_max h /\ h_marker h' = h_marker h /\ h_str h' = h_str h.
Proof.
  intros HI E HR. unfold h_store. rewrite E. cbn zeta. cbn [h_mem h_objs h_max h_marker h_str c_mark].
  splits; auto; try apply mset_same; try (intros; apply mset_other; auto).
  assert (Hp : In p (h_objs h)) by (apply (hi_dom h HI); congruence).
  constructor; cbn [h_mem h_objs h_max h_marker h_str].
  - apply HI.
  - intro q. unfold mset. destruct (q =? p) eqn:Eq; [|apply HI]. assert (q = p) by lia. subst. split; [discriminate|auto].
  - intros q c. unfold mset. destruct (q =? p) eqn:Eq; [|apply HI]. intro H; inversion H; subst; cbn. apply (hi_mark h HI) in E. auto.
  - apply HI.
  - intros q c r. unfold mset. destruct (q =? p) eqn:Eq; [|apply HI]. intros H Hr; inversion H; subst; auto.
  - destruct (hi_strs h HI) as (M & S1 & S2 & S3). exists M. splits; auto. intros q c i s. unfold mset.
    destruct (q =? p); [|apply S3]. intros H Hk. inversion H; subst c. discriminate.
Qed.

Lemma rset_entries {K V} (hf : K -> res Z) cf (t : pdict K V) k v t' : rset hf cf t k v = Ok t' ->
  length t' = length t /\ forall e, In e (concat t') -> In e (concat t) \/ e = (k, v).
Proof.
  unfold rset. intro H. apply bind_ok in H as (s & _ & H). apply bind_ok in H as (l & Hl & H). inversion H; subst t'.
  split; [apply upd_length|]. intros e He. apply in_concat in He as (b & Hb & He).
  assert (HU : b = l ++ [(k, v)] \/ In b t).
  { clear -Hb. revert s Hb. induction t; intros [|s]; cbn; try tauto; intros [<-|Hb]; auto. apply IHt in Hb as [->|Hb]; auto. }
  destruct HU as [->|HU]; [|left; apply in_concat; eauto].
  apply in_app_iff in He as [He|[<-|[]]]; auto. left.
  assert (HD : In e (nth s t [])).
  { clear -Hl He. revert l Hl He. induction (nth s t []) as [|a l0 IH]; cbn; intros l Hl He; [inversion Hl; subst; auto|].
    apply bind_ok in Hl as (c & _ & Hl). destruct (c =? 0); [inversion Hl; subst; auto|].
    apply bind_ok in Hl as (l' & H1 & H2). inversion H2; subst l. destruct He as [<-|He]; eauto. }
  apply in_concat. exists (nth s t []). split; auto. apply nth_In. destruct (Nat.lt_ge_cases s (length t)); auto.
  rewrite nth_overflow in HD by auto. destruct HD.
Qed.

(** The loop over the entries, as a separate function. *)
Fixpoint clone_entries (f : nat) (x : ptr) (l : list (ptr * ptr)) (h : heap) : res heap :=
  match l with
  | [] => Ok h
  | (k, d) :: t =>
      '(ha, k') <- h_clone malloc f h k ;;
      '(hb, d') <- h_clone malloc f ha d ;;
      kx <- load (h_mem hb) x ;;
      match kx with
      | KTab tb => tb' <- rset (phash (h_mem hb)) (pcmp (h_mem hb)) tb k' d' ;;
                   clone_entries f x t (h_store hb x (KTab tb'))
      | _ => UB
      end
  end.
Lemma clone_tab f h o c bs : h_mem h o = Some c -> c_kind c = KTab bs ->
  h_clone malloc (S f) h o =
  (let '(h1, x) := h_add malloc h (KTab (pnew (zlen bs))) (c_mark c) in
   h2 <- clone_entries f x (pentries bs) h1 ;; Ok (h2, x)).
Proof.
  intros E K. cbn [h_clone]. rewrite E, K. destruct (h_add malloc h (KTab (pnew (zlen bs))) (c_mark c)) as [h1 x].
  f_equal. generalize (pentries bs) h1. clear. induction l as [|[k d] t IH]; intros h; [reflexivity|].
  cbn [clone_entries]. destruct (h_clone malloc f h k) as [[ha k']| | |]; cbn [bind]; auto.
  destruct (h_clone malloc f ha d) as [[hb d']| | |]; cbn [bind]; auto.
  destruct (load (h_mem hb) x) as [[]| | |]; cbn [bind]; auto.
  destruct (rset _ _ _ _ _); cbn [bind]; auto.
Qed.
Lemma clone_leaf f h o c : h_mem h o = Some c -> (forall bs, c_kind c <> KTab bs) ->
  h_clone malloc (S f) h o = Ok (h_add malloc h (c_kind c) (c_mark c)).
Proof. intros E K. cbn [h_clone]. rewrite E. destruct (c_kind c) eqn:EK; auto. destruct (K buckets); auto. Qed.
Lemma kind_tab_dec k : {bs | k = KTab bs} + {forall bs, k <> KTab bs}.
Proof. destruct k; try (right; discriminate). left. eauto. Qed.

Lemma pnew_refers n q : ~ refers (KTab (pnew n)) q.
Proof.
  cbn. intros (a & b & H & _). unfold pnew in H. apply in_concat in H as (l & Hl & H). apply repeat_spec in Hl. subst. destruct H.
Qed.

Lemma clone_inv fuel : forall h o h' x, HInv h -> In o (h_objs h) -> h_clone malloc fuel h o = Ok (h', x) ->
  HInv h' /\ ext h h' /\ In x (h_objs h') /\ ~ In x (h_objs h).
Proof.
  induction fuel as [|f IH]; [discriminate|]. intros h o h' x HI Ho HE.
  destruct (h_mem h o) as [c|] eqn:E; [|apply (hi_dom h HI) in Ho; congruence].
  pose proof (hi_mark h HI o c E) as Hm.
  destruct (kind_tab_dec (c_kind c)) as [(bs & K)|K].
  - rewrite (clone_tab f h o c bs E K) in HE. rewrite Hm in HE.
    pose proof (add_spec h (KTab (pnew (zlen bs))) HI) as HA.
    destruct (h_add malloc h (KTab (pnew (zlen bs))) (h_marker h)) as [h1 x1].
    destruct HA as (I1 & X1 & N1 & L1 & M1).
    { intros q Hq. destruct (pnew_refers _ _ Hq). }
    { discriminate. }
    apply bind_ok in HE as (h2 & HE & HX). inversion HX; subst h2 x1.
    assert (HL : forall l hc hf tb mk, HInv hc -> ext h hc -> In x (h_objs hc) -> h_mem hc x = Some (mkCell (KTab tb) mk) ->
       (forall k d, In (k, d) l -> In k (h_objs h) /\ In d (h_objs h)) ->
       clone_entries f x l hc = Ok hf -> HInv hf /\ ext h hf /\ In x (h_objs hf)).
    { induction l as [|[k d] t IHl]; intros hc hf tb mk IC XC LC MC HR HF; cbn [clone_entries] in HF.
      - inversion HF; subst. auto.
      - apply bind_ok in HF as ([ha k'] & Ea & HF). apply bind_ok in HF as ([hb d'] & Eb & HF).
        destruct (HR k d (or_introl eq_refl)) as [Rk Rd].
        destruct (IH hc k ha k' IC (ext_in _ _ _ XC Rk) Ea) as (Ia & Xa & La & Na).
        destruct (IH ha d hb d' Ia (ext_in _ _ _ Xa (ext_in _ _ _ XC Rd)) Eb) as (Ib & Xb & Lb & Nb).
        assert (Mx : h_mem hb x = Some (mkCell (KTab tb) mk)).
        { destruct Xa as (_ & Xa & _). destruct Xb as (Xb0 & Xb & _). rewrite Xb, Xa; auto. 
          eapply ext_in; [|exact LC]. apply (proj1 (proj2 (IH hc k ha k' IC (ext_in _ _ _ XC Rk) Ea))). }
        unfold load in HF. rewrite Mx in HF. cbn [bind c_kind] in HF. apply bind_ok in HF as (tb' & Et & HF).
        destruct (rset_entries _ _ _ _ _ _ Et) as [_ HS].
        destruct (store_spec hb x tb' tb mk Ib Mx) as (Is & Ms & Os & Fs & Q1 & Q2 & Q3).
        { intros q (a & b & Hab & Hq). apply HS in Hab as [Hab|Hab].
          - eapply (hi_refs hb Ib x); [exact Mx|]. cbn. eauto.
          - inversion Hab; subst. destruct Hq as [-> | ->]; auto. eapply ext_in; eauto. }
        apply (IHl _ _ tb' mk Is) in HF; auto.
        + assert (XB : ext h hb) by (eapply ext_trans; [exact XC|]; eapply ext_trans; eauto).
          destruct XB as (B1 & B2 & B3 & B4 & B5). unfold ext. splits; try congruence.
          * destruct B1 as (l & B1). exists l. congruence.
          * intros p Hp. rewrite Fs; auto. intros ->. contradiction.
        + rewrite Os. eapply ext_in; [exact Xb|]. eapply ext_in; eauto.
        + intros k0 d0 H0. apply HR. right. auto. }
    destruct (HL _ _ _ _ _ I1 X1 L1 M1 (fun k d Hkd => conj (hi_refs h HI o c k E ltac:(rewrite K; cbn; eauto)) (hi_refs h HI o c d E ltac:(rewrite K; cbn; eauto))) HE) as (If & Xf & Lf).
    splits; auto.
  - rewrite (clone_leaf f h o c E K) in HE. rewrite Hm in HE.
    pose proof (add_spec h (c_kind c) HI) as HA. destruct (h_add malloc h (c_kind c) (h_marker h)) as [h1 x1]. inversion HE; subst h1 x1.
    destruct HA as (I1 & X1 & N1 & L1 & M1); auto.
    + intros q Hq. eapply hi_refs; eauto.
    + intros i s HK. eauto.
Qed.

(** Every operation of a history preserves the invariant. *)
Lemma hstep_inv h o h' : HInv h -> hop_ok h o -> hstep malloc h o = Ok h' -> HInv h'.
Proof.
  intros HI HO HE. destruct o as [k|s prot|p bs|fuel p|r]; cbn [hop_ok hstep] in HO, HE.
  - inversion HE; subst. unfold h_newobj. destruct HO as [H1 H2].
    pose proof (add_spec h k HI H1) as HA. unfold h_add in *. cbn [fst]. apply HA. intros i s HK. destruct (H2 i s HK).
  - apply bind_ok in HE as ([sm id] & E & HE). inversion HE; subst h'. clear HE.
    destruct (hi_strs h HI) as (M & S1 & S2 & S3).
    destruct (register_ok (h_str h) M s prot S1 S2 HO) as (sm' & id' & M' & E' & HS & S1' & S2').
    rewrite E in E'. inversion E'; subst sm' id'. clear E'.
    destruct HS as (i & Hi & Hr & HS). inversion Hi; subst i. clear Hi.
    assert (HM : (exists q, M' s = Some (id, q)) /\ forall t i q, M t = Some (i, q) -> exists q', M' t = Some (i, q')).
    { destruct (M s) as [[i0 q0]|] eqn:EM.
      - destruct HS as [-> HS]. split; [eexists; rewrite HS; apply lm_set_same|].
        intros t i q Ht. rewrite HS. unfold lm_set. destruct (str_dec t s); [subst; rewrite EM in Ht; inversion Ht; subst; eauto|eauto].
      - destruct HS as [_ HS]. split; [eexists; rewrite HS; apply lm_set_same|].
        intros t i q Ht. rewrite HS. unfold lm_set. destruct (str_dec t s); [subst; congruence|eauto]. }
    destruct HM as [HM1 HM2]. unfold h_newobj, h_add. cbn [h_mem h_objs h_max h_marker h_str fst].
    set (x := malloc (h_objs h)). assert (Hx : ~ In x (h_objs h)) by apply Hmal.
    constructor; cbn.
    + apply (Permutation_NoDup (l := x :: h_objs h)). { apply Permutation_cons_append. } constructor; auto. apply HI.
    + intro p. rewrite in_app_iff. unfold mset. destruct (p =? x) eqn:E0.
      * assert (p = x) by lia. subst. split; [discriminate|]. intros _. right. left. auto.
      * rewrite (hi_dom h HI). split; [intros [H|[H|[]]]; [auto|lia]|auto].
    + intros p c. unfold mset. destruct (p =? x); [intro H; inversion H; auto|apply HI].
    + apply HI.
    + intros p c q. unfold mset. rewrite in_app_iff. destruct (p =? x); [intros H Hq; inversion H; subst; cbn in Hq; tauto|].
      intros E0 Hq. left. eapply hi_refs; eauto.
    + exists M'. splits; auto. intros p c i t. unfold mset. destruct (p =? x).
      * intros H Hk. inversion H; subst c. cbn in Hk. inversion Hk; subst. auto.
      * intros H Hk. destruct (S3 p c i t H Hk) as (q & Hq). eapply HM2; eauto.
  - inversion HE; subst. destruct HO as [H1 (bs' & mk & H2)]. apply (store_spec h p bs bs' mk HI H2 H1).
  - apply bind_ok in HE as ([h1 x] & E & HE). inversion HE; subst. eapply clone_inv; eauto.
  - destruct HO as [H1 H2]. destruct (Z_lt_le_dec (zlen (h_objs h)) (h_max h)) as [Hc|Hc].
    + unfold h_gc in HE. destruct (_ <? _) eqn:EX; [|lia]. inversion HE; subst; auto.
    + destruct (gc_spec h r HI H1 H2 Hc) as (h1 & keep & E & I1 & _). congruence.
Qed.
Lemma hrun_inv ops : forall h h', HInv h -> hist_ok malloc h ops -> hrun malloc h ops = Ok h' -> HInv h'.
Proof.
  induction ops as [|o t IH]; intros h h' HI HO HE; cbn in *.
  - inversion HE; subst; auto.
  - destruct HO as [HO HT]. apply bind_ok in HE as (h1 & E1 & HE). rewrite E1 in HT. apply (IH h1); auto. eapply hstep_inv; eauto.
Qed.

(** ** Structural equality of clones *)
Lemma treach_frame m m' p : (forall y, treach m p y -> m' y = m y) -> forall y, treach m' p y -> treach m p y.
Proof.
  intros H y HT. revert H. induction HT as [p|p q r HS HT IH]; intro H; [apply tr_refl|].
  assert (HS' : tstep m p q).
  { destruct HS as (c & bs & E & K & R). exists c, bs. rewrite <- (H p (tr_refl _ _)). auto. }
  eapply tr_step; [exact HS'|]. apply IH. intros y Hy. apply H. eapply tr_step; eauto.
Qed.
Lemma same_frame m m' m'' p p' : same m m' p p' -> (forall y, treach m' p' y -> m'' y = m' y) -> same m m'' p p'.
Proof.
  induction 1 as [p p' c c' E E' K NK|p p' c c' bs bs' E E' K K' L1 L2 HK IHK HD IHD]; intro H.
  - eapply same_leaf; eauto. rewrite H; auto. apply tr_refl.
  - assert (HT : forall i j k d, nth_error (nth i bs' []) j = Some (k, d) -> tstep m' p' k /\ tstep m' p' d).
    { intros i j k d Hn. assert (HIn : In (k, d) (concat bs')).
      { apply nth_error_In in Hn. apply in_concat. exists (nth i bs' []). split; auto. apply nth_In.
        destruct (Nat.lt_ge_cases i (length bs')); auto. rewrite nth_overflow in Hn by auto. destruct Hn. }
      split; exists c', bs'; splits; auto; cbn; eauto. }
    eapply same_tab; eauto.
    + rewrite H; [exact E'|apply tr_refl].
    + intros i j k d k' d' H1 H2. eapply IHK; eauto. intros y Hy. apply H. apply (tr_step _ _ k'); [apply (HT i j k' d' H2)|auto].
    + intros i j k d k' d' H1 H2. eapply IHD; eauto. intros y Hy. apply H. apply (tr_step _ _ d'); [apply (HT i j k' d' H2)|auto].
Qed.
Lemma same_left m0 m m' p p' : (forall q c, m0 q = Some c -> m q = Some c) -> same m0 m' p p' -> same m m' p p'.
Proof.
  intros H. induction 1; [eapply same_leaf; eauto|eapply same_tab; eauto].
Qed.
Lemma phash_mono m m1 k z : (forall q c, m q = Some c -> m1 q = Some c) -> phash m k = Ok z -> phash m1 k = Ok z.
Proof. intros H. unfold phash, load. destruct (m k) eqn:E; [rewrite (H _ _ E); auto|discriminate]. Qed.
Lemma pcmp_mono m m1 a b z : (forall q c, m q = Some c -> m1 q = Some c) -> pcmp m a b = Ok z -> pcmp m1 a b = Ok z.
Proof.
  intros H. unfold pcmp, load. destruct (m a) eqn:E; [|discriminate]. destruct (m b) eqn:E2; [|discriminate].
  rewrite (H _ _ E), (H _ _ E2). auto.
Qed.
Lemma cloneable_mono m m1 p : (forall q c, m q = Some c -> m1 q = Some c) -> cloneable m p -> cloneable m1 p.
Proof.
  intros H. induction 1 as [p c E K|p c bs E K (T0 & T1 & T2) HK IHK HD IHD]; [eapply cl_leaf; eauto|].
  eapply cl_tab; eauto. split; [exact T0|split].
  - intros i k d Hi. destruct (T1 i k d Hi) as (z & Hz & Hs). exists z. split; auto. eapply phash_mono; eauto.
  - intros i j1 j2 e1 e2 H1 H2 H3. destruct (T2 i j1 j2 e1 e2 H1 H2 H3) as (c0 & Hc & Hn). exists c0. split; auto. eapply pcmp_mono; eauto.
Qed.

Lemma same_key_obj m m' p p' z : same m m' p p' -> phash m p = Ok z ->
  exists o, (k <- load m p ;; Ok (kobj p k)) = Ok o /\ (k <- load m' p' ;; Ok (kobj p' k)) = Ok o /\ table_hash o = Ok z.
Proof.
  unfold phash, load. intros HS HZ. destruct HS as [p p' c c' E E' K NK|p p' c c' bs bs' E E' K K' _ _ _ _].
  - rewrite E in HZ. cbn in HZ. rewrite E, E'. cbn. rewrite <- K. exists (kobj p (c_kind c)).
    splits; auto. f_equal. destruct (c_kind c) eqn:EK; auto. destruct (NK buckets); auto.
  - rewrite E in HZ. cbn in HZ. rewrite K in HZ. discriminate.
Qed.

Lemma rdel_none {K V} (cf : K -> K -> res Z) k (l : list (K * V)) :
  Forall (fun e => exists c, cf k (fst e) = Ok c /\ c <> 0) l -> rdel cf k l = Ok l.
Proof.
  induction 1 as [|e l (c & Hc & Hn) _ IH]; cbn; auto. rewrite Hc. cbn. destruct (c =? 0) eqn:E; [lia|]. rewrite IH. reflexivity.
Qed.
Lemma filter_concat {A} (slot : A -> nat) (bs : list (list A)) : forall off i,
  (forall j e, In e (nth j bs []) -> slot e = (off + j)%nat) ->
  filter (fun e => Nat.eqb (slot e) (off + i)) (concat bs) = nth i bs [].
Proof.
  induction bs as [|b t IH]; intros off i H; [destruct i; reflexivity|]. cbn [concat]. rewrite filter_app.
  assert (HT : forall j e, In e (nth j t []) -> slot e = (S off + j)%nat).
  { intros j e He. rewrite (H (S j) e He). lia. }
  destruct i as [|i].
  - cbn [nth]. assert (H1 : filter (fun e => Nat.eqb (slot e) (off + 0)) b = b).
    { clear IH HT. pose proof (H 0%nat) as H0. cbn [nth] in H0. clear H. induction b as [|a b IHb]; auto. cbn.
      rewrite (H0 a) by (left; auto). rewrite Nat.eqb_refl. f_equal. apply IHb. intros. apply H0. right; auto. }
    rewrite H1. assert (H2 : filter (fun e => Nat.eqb (slot e) (off + 0)) (concat t) = []).
    { assert (HN : forall e, In e (concat t) -> (slot e <> off + 0)%nat).
      { intros e He. apply in_concat in He as (l & Hl & He). apply In_nth with (d := []) in Hl as (j & Hj & <-).
        rewrite (HT j e He). lia. }
      clear -HN. induction (concat t) as [|a l IHl]; auto. cbn. destruct (Nat.eqb_spec (slot a) (off + 0)).
      - destruct (HN a); [left; auto|auto].
      - apply IHl. intros. apply HN. right; auto. }
    rewrite H2, app_nil_r. reflexivity.
  - cbn [nth]. assert (H1 : filter (fun e => Nat.eqb (slot e) (off + S i)) b = []).
    { pose proof (H 0%nat) as H0. cbn [nth] in H0. clear -H0. induction b as [|a b IHb]; auto. cbn.
      rewrite (H0 a) by (left; auto). destruct (Nat.eqb_spec (off + 0) (off + S i)); [lia|]. apply IHb. intros; apply H0; right; auto. }
    rewrite H1. cbn [app]. replace (off + S i)%nat with (S off + i)%nat by lia. apply IH. exact HT.
Qed.
Lemma forall2_snoc {A B} (R : A -> B -> Prop) l l' a b : Forall2 R l l' -> R a b -> Forall2 R (l ++ [a]) (l' ++ [b]).
Proof. intros H1 H2. apply Forall2_app; auto. Qed.
Lemma forall2_impl {A B} (R R' : A -> B -> Prop) l l' : (forall a b, R a b -> R' a b) -> Forall2 R l l' -> Forall2 R' l l'.
Proof. intros H. induction 1; constructor; auto. Qed.
Lemma Forall2_nth_error {A B} (R : A -> B -> Prop) l l' j a b :
  Forall2 R l l' -> nth_error l j = Some a -> nth_error l' j = Some b -> R a b.
Proof.
  intro H. revert j. induction H; intros [|j]; cbn; try discriminate; eauto. intros E1 E2. inversion E1; inversion E2; subst; auto.
Qed.
Lemma nth_upd {A} (l : list A) i j x d : (i < length l)%nat -> nth j (upd l i x) d = if Nat.eqb j i then x else nth j l d.
Proof.
  revert i j. induction l as [|a l IH]; intros [|i] [|j] H; cbn in *; auto; try lia.
  apply IH. lia.
Qed.

Definition mle (m m1 : mem) : Prop := forall q c, m q = Some c -> m1 q = Some c.
Lemma mle_trans a b c : mle a b -> mle b c -> mle a c.
Proof. unfold mle; auto. Qed.
Lemma ext_mle h h' : HInv h -> ext h h' -> mle (h_mem h) (h_mem h').
Proof. intros HI (_ & H & _) q c E. rewrite H; auto. apply (hi_dom h HI). congruence. Qed.

Definition clones (m0 : mem) (n : nat) (o : ptr) : Prop :=
  forall fuel h, (n <= fuel)%nat -> HInv h -> mle m0 (h_mem h) ->
  exists h' x, h_clone malloc fuel h o = Ok (h', x) /\ HInv h' /\ ext h h' /\
    same m0 (h_mem h') o x /\ (forall y, treach (h_mem h') x y -> ~ In y (h_objs h) /\ In y (h_objs h')).

Lemma clones_le m0 n n' o : (n <= n')%nat -> clones m0 n o -> clones m0 n' o.
Proof. intros H C fuel h Hf. apply C. lia. Qed.
Lemma clones_max m0 (l : list (ptr * ptr)) :
  (forall k d, In (k, d) l -> (exists n, clones m0 n k) /\ (exists n, clones m0 n d)) ->
  exists n, forall k d, In (k, d) l -> clones m0 n k /\ clones m0 n d.
Proof.
  induction l as [|[k d] l IH]; intro H; [exists 0%nat; intros ? ? []|].
  destruct (H k d (or_introl eq_refl)) as [[n1 H1] [n2 H2]]. destruct IH as [n H3]; [intros; apply H; right; auto|].
  exists (Nat.max n (Nat.max n1 n2)). intros k0 d0 [E|Hi].
  - inversion E; subst. split; [apply (clones_le m0 n1)|apply (clones_le m0 n2)]; auto; lia.
  - destruct (H3 k0 d0 Hi). split; apply (clones_le m0 n); auto; lia.
Qed.

Section Loop.
(** The heap before, the table cloned, the address of the new table. *)
Variables (m0 : mem) (h : heap) (bs : pdict ptr ptr) (x : ptr) (mk : Z).
Hypothesis HI : HInv h.
Hypothesis H0 : mle m0 (h_mem h).
Hypothesis HT : tab_ok m0 bs.
Hypothesis Hx : ~ In x (h_objs h).

Definition slot (e : ptr * ptr) : nat := match phash m0 (fst e) with Ok z => Z.to_nat (z mod zlen bs) | _ => length bs end.
Definition good (hc : heap) (p p' : ptr) : Prop :=
  same m0 (h_mem hc) p p' /\ forall y, treach (h_mem hc) p' y -> ~ In y (h_objs h) /\ y <> x /\ In y (h_objs hc).
Definition goode (hc : heap) (e e' : ptr * ptr) : Prop := good hc (fst e) (fst e') /\ good hc (snd e) (snd e').

Lemma good_frame hc hn p p' : (forall y, In y (h_objs hc) -> y <> x -> h_mem hn y = h_mem hc y) ->
  (forall y, In y (h_objs hc) -> In y (h_objs hn)) -> good hc p p' -> good hn p p'.
Proof.
  intros HF HO [H1 H2].
  assert (HF' : forall y, treach (h_mem hc) p' y -> h_mem hn y = h_mem hc y).
  { intros y Hy. destruct (H2 y Hy) as (_ & ? & ?). auto. }
  split; [eapply same_frame; eauto|]. intros y Hy. apply (treach_frame _ _ _ HF') in Hy. destruct (H2 y Hy) as (? & ? & ?). auto.
Qed.
Lemma goode_frame hc hn e e' : (forall y, In y (h_objs hc) -> y <> x -> h_mem hn y = h_mem hc y) ->
  (forall y, In y (h_objs hc) -> In y (h_objs hn)) -> goode hc e e' -> goode hn e e'.
Proof. intros ? ? [? ?]. split; eapply good_frame; eauto. Qed.

Lemma slot_filter i : filter (fun e => Nat.eqb (slot e) i) (concat bs) = nth i bs [].
Proof.
  change (fun e => Nat.eqb (slot e) i) with (fun e => Nat.eqb (slot e) (0 + i)). apply filter_concat.
  intros j [k d] He. destruct HT as (_ & T1 & _). destruct (T1 j k d He) as (z & Hz & Hs). unfold slot. cbn [fst]. rewrite Hz, Hs. reflexivity.
Qed.

Lemma good_of hc hn p p' : ext h hc -> In x (h_objs hc) -> same m0 (h_mem hn) p p' ->
  (forall y, treach (h_mem hn) p' y -> ~ In y (h_objs hc) /\ In y (h_objs hn)) -> good hn p p'.
Proof.
  intros XC LC S R. split; auto. intros y Hy. destruct (R y Hy) as [N L]. splits; auto.
  - intro Hn. apply N. eapply ext_in; eauto.
  - intros ->. contradiction.
Qed.

Lemma loop_ok f : forall rest done hc tb,
  (forall k d, In (k, d) rest -> clones m0 f k /\ clones m0 f d) ->
  concat bs = done ++ rest -> HInv hc -> ext h hc -> In x (h_objs hc) -> h_mem hc x = Some (mkCell (KTab tb) mk) ->
  length tb = length bs -> (forall i, Forall2 (goode hc) (filter (fun e => Nat.eqb (slot e) i) done) (nth i tb [])) ->
  exists hf tbf, clone_entries f x rest hc = Ok hf /\ HInv hf /\ ext h hf /\ In x (h_objs hf) /\
    h_mem hf x = Some (mkCell (KTab tbf) mk) /\ length tbf = length bs /\
    (forall i, Forall2 (goode hf) (nth i bs []) (nth i tbf [])).
Proof.
  induction rest as [|[k d] rest IH]; intros done hc tb HC HB IC XC LC MC HL HG; cbn [clone_entries].
  - exists hc, tb. rewrite app_nil_r in HB. splits; auto. intro i. rewrite <- slot_filter, HB. auto.
  - destruct (HC k d (or_introl eq_refl)) as [Ck Cd].
    assert (Hmc : mle m0 (h_mem hc)) by (eapply mle_trans; [exact H0|apply ext_mle; auto]).
    destruct (Ck f hc (le_n _) IC Hmc) as (ha & k' & Ea & Ia & Xa & Sa & Ra).
    destruct (Cd f ha (le_n _) Ia (mle_trans _ _ _ Hmc (ext_mle _ _ IC Xa))) as (hb & d' & Eb & Ib & Xb & Sb & Rb).
    rewrite Ea. cbn [bind]. rewrite Eb. cbn [bind].
    assert (Lxa : In x (h_objs ha)) by (eapply ext_in; eauto).
    assert (Lxb : In x (h_objs hb)) by (eapply ext_in; eauto).
    assert (Mx : h_mem hb x = Some (mkCell (KTab tb) mk)).
    { destruct Xa as (_ & Xa & _). destruct Xb as (_ & Xb & _). rewrite Xb, Xa; auto. }
    unfold load at 1. rewrite Mx. cbn [bind c_kind].
    assert (XBc : ext hc hb) by (apply (ext_trans hc ha hb); auto).
    assert (XB : ext h hb) by (apply (ext_trans h hc hb); auto).
    assert (XA : ext h ha) by (apply (ext_trans h hc ha); auto).
    assert (FR : forall h1 h2, ext h1 h2 -> (forall y, In y (h_objs h1) -> y <> x -> h_mem h2 y = h_mem h1 y) /\ (forall y, In y (h_objs h1) -> In y (h_objs h2))).
    { intros h1 h2 X. split; [intros; destruct X as (_ & X & _); auto|intros; eapply ext_in; eauto]. }
    assert (Gk : good hb k k').
    { destruct (FR _ _ Xb). eapply (good_frame ha); auto. eapply (good_of hc); auto. }
    assert (Gd : good hb d d') by (eapply (good_of ha); auto).
    assert (Lk' : In k' (h_objs hb) /\ k' <> x) by (destruct Gk as [_ Gk]; destruct (Gk k' (tr_refl _ _)) as (_ & ? & ?); auto).
    assert (Ld' : In d' (h_objs hb) /\ d' <> x) by (destruct Gd as [_ Gd]; destruct (Gd d' (tr_refl _ _)) as (_ & ? & ?); auto).
    assert (HGb : forall i, Forall2 (goode hb) (filter (fun e => Nat.eqb (slot e) i) done) (nth i tb [])).
    { intro i. eapply forall2_impl; [|apply HG]. intros e e' He. destruct (FR _ _ XBc). eapply goode_frame; eauto. }
    (* the slot of the key *)
    pose proof HT as (T0 & T1 & T2).
    assert (Hin : exists i, In (k, d) (nth i bs []) /\ (i < length bs)%nat).
    { assert (Hin : In (k, d) (concat bs)) by (rewrite HB; apply in_or_app; right; left; auto).
      apply in_concat in Hin as (l & Hl & Hin). apply In_nth with (d := []) in Hl as (j & Hj & <-). eauto. }
    destruct Hin as (i & Hin & Hil). destruct (T1 i k d Hin) as (z & Hz & Hs).
    assert (Hslot : slot (k, d) = i) by (unfold slot; cbn [fst]; rewrite Hz; auto).
    destruct (same_key_obj _ _ _ _ z (proj1 Gk) Hz) as (ko & Ko & Ko' & Kh).
    assert (Hset : rset (phash (h_mem hb)) (pcmp (h_mem hb)) tb k' d' = Ok (upd tb i (nth i tb [] ++ [(k', d')]))).
    { unfold rset, rslot. assert (Hh : phash (h_mem hb) k' = Ok z).
      { unfold phash. apply bind_ok in Ko' as (kk & E1 & E2). rewrite E1. cbn [bind]. assert (E3 : kobj k' kk = ko) by congruence. rewrite E3. exact Kh. }
      rewrite Hh. cbn [bind]. replace (zlen tb) with (zlen bs) by (unfold zlen; lia). rewrite Hs.
      rewrite rdel_none; [reflexivity|].
      assert (HP : forall e, In e (filter (fun e => Nat.eqb (slot e) i) done) -> (exists c, pcmp m0 k (fst e) = Ok c /\ c <> 0) /\ (exists z', phash m0 (fst e) = Ok z')).
      { intros e He. pose proof He as He0. apply In_nth_error in He as (j & Hj).
        assert (Hlt : (j < length (filter (fun e => Nat.eqb (slot e) i) done))%nat) by (apply nth_error_Some; congruence).
        assert (HF : nth i bs [] = filter (fun e => Nat.eqb (slot e) i) done ++ (k, d) :: filter (fun e => Nat.eqb (slot e) i) rest).
        { rewrite <- slot_filter, HB, filter_app. cbn [filter]. rewrite Hslot, Nat.eqb_refl. reflexivity. }
        split; cycle 1.
        { destruct e as [ke de]. destruct (T1 i ke de) as (z' & Hz' & _); [rewrite HF; apply in_or_app; auto|eauto]. }
        apply (T2 i j (length (filter (fun e => Nat.eqb (slot e) i) done)) e (k, d)); auto.
        - rewrite HF, nth_error_app1; auto.
        - rewrite HF, nth_error_app2 by lia. rewrite Nat.sub_diag. reflexivity. }
      specialize (HGb i). clear -HGb HP Ko Ko' H0.
      induction HGb as [|e e' l l' He Hl IHl]; constructor; auto.
      - destruct (HP e (or_introl eq_refl)) as ((c & Hc & Hn) & (z' & Hz')). exists c. split; auto. destruct He as [[He _] _].
        unfold pcmp in *. apply bind_ok in Hc as (ka & Ea & Hc). apply bind_ok in Hc as (kb & Eb & Hc).
        apply bind_ok in Ko' as (ka' & Ea' & Ko'). rewrite Ea in Ko. cbn in Ko. rewrite Ea'. cbn.
        assert (Eo : kobj k' ka' = kobj k ka) by congruence. rewrite Eo.
        destruct He as [p p' c0 c0' E E' K NK|p p' c0 c0' b0 b0' E E' K K' _ _ _ _].
        + unfold load in *. rewrite E in Eb. rewrite E'. cbn. inversion Eb; subst kb. rewrite <- K.
          replace (kobj p' (c_kind c0)) with (kobj p (c_kind c0)); auto. destruct (c_kind c0) eqn:EK; auto. destruct (NK buckets); auto.
        + unfold load in *. rewrite E in Eb. rewrite E'. cbn. unfold phash, load in Hz'. rewrite E in Hz'. cbn in Hz'. rewrite K in Hz'. discriminate.
      - apply IHl. intros e0 H1. apply HP. right; auto. }
    rewrite Hset. cbn [bind].
    destruct (store_spec hb x (upd tb i (nth i tb [] ++ [(k', d')])) tb mk Ib Mx) as (Is & Ms & Os & Fs & Q1 & Q2 & Q3).
    { destruct (rset_entries _ _ _ _ _ _ Hset) as [_ HS]. intros q (a & b & Hab & Hq). apply HS in Hab as [Hab|Hab].
      - eapply (hi_refs hb Ib x); [exact Mx|]. cbn. eauto.
      - inversion Hab; subst. destruct Hq as [-> | ->]; tauto. }
    assert (FS : forall e e', goode hb e e' -> goode (h_store hb x (KTab (upd tb i (nth i tb [] ++ [(k', d')])))) e e').
    { intros e e'. apply goode_frame; [intros; apply Fs; auto|rewrite Os; auto]. }
    eapply (IH (done ++ [(k, d)])); eauto.
    + intros. apply HC. right; auto.
    + rewrite <- app_assoc. exact HB.
    + destruct XB as (B1 & B2 & B3 & B4 & B5). unfold ext. splits; try congruence.
      * destruct B1 as (l & B1). exists l. congruence.
      * intros p Hp. rewrite Fs; auto. intros ->. contradiction.
    + rewrite Os. auto.
    + rewrite upd_length. auto.
    + intro j. rewrite filter_app. cbn [filter]. rewrite Hslot. rewrite nth_upd by lia. rewrite (Nat.eqb_sym i j).
      destruct (Nat.eqb_spec j i) as [->|Hne].
      * apply Forall2_app; [eapply forall2_impl; [exact FS|apply HGb]|]. constructor; auto. apply FS. split; auto.
      * rewrite app_nil_r. eapply forall2_impl; [exact FS|apply HGb].
Qed.
End Loop.

Theorem clone_ok m0 o : cloneable m0 o -> exists n, clones m0 n o.
Proof.
  induction 1 as [p c E K|p c bs E K HT HK IHK HD IHD].
  - exists 1%nat. intros [|f] h Hf HI H0; [lia|]. apply H0 in E as E1. rewrite (clone_leaf f h p c E1 K).
    rewrite (hi_mark h HI p c E1).
    pose proof (add_spec h (c_kind c) HI) as HA. destruct (h_add malloc h (c_kind c) (h_marker h)) as [h1 x1].
    destruct HA as (I1 & X1 & N1 & L1 & M1).
    + intros q Hq. eapply hi_refs; eauto.
    + intros i s HKs. eauto.
    + exists h1, x1. splits; auto.
      * eapply same_leaf; eauto.
      * intros y Hy. destruct Hy as [p0|p0 q0 r0 (c0 & b0 & E0 & K0 & _) _]; auto. rewrite M1 in E0. inversion E0; subst c0. cbn in K0. destruct (K b0); auto.
  - destruct (clones_max m0 (concat bs)) as (n & Hn). { intros k d Hkd. split; eauto. }
    exists (S n). intros [|f] h Hf HI H0; [lia|]. apply H0 in E as E1. rewrite (clone_tab f h p c bs E1 K).
    rewrite (hi_mark h HI p c E1).
    pose proof (add_spec h (KTab (pnew (zlen bs))) HI) as HA. destruct (h_add malloc h (KTab (pnew (zlen bs))) (h_marker h)) as [h1 x].
    destruct HA as (I1 & X1 & N1 & L1 & M1).
    { intros q Hq. destruct (pnew_refers _ _ Hq). }
    { discriminate. }
    destruct (loop_ok m0 h bs x (h_marker h) HI H0 HT N1 f (concat bs) [] h1 (pnew (zlen bs))) as (hf & tbf & Ef & If & Xf & Lf & Mf & Hl & HG); auto.
    { intros k d Hkd. destruct (Hn k d Hkd). split; apply (clones_le m0 n); auto; lia. }
    { unfold pnew. rewrite repeat_length. unfold zlen. lia. }
    { intro i. cbn. unfold pnew. replace (nth i (repeat [] (Z.to_nat (zlen bs))) []) with (@nil (ptr * ptr)); [constructor|]. symmetry. apply nth_repeat. }
    unfold pentries. rewrite Ef. cbn [bind]. exists hf, x. splits; auto.
    + apply (same_tab m0 (h_mem hf) p x c _ bs tbf E Mf K eq_refl (eq_sym Hl)).
      * intro i. specialize (HG i). clear -HG. induction HG; cbn; auto.
      * intros i j k d k' d' A B. assert (HR : goode m0 h x hf (k, d) (k', d')) by (eapply Forall2_nth_error; eauto). apply HR.
      * intros i j k d k' d' A B. assert (HR : goode m0 h x hf (k, d) (k', d')) by (eapply Forall2_nth_error; eauto). apply HR.
    + intros y Hy. inversion Hy as [p0 Ep0|p0 q0 r0 HS HR Ep0 Er0]; [subst; auto|]. clear Ep0 Er0 p0 r0.
      destruct HS as (c0 & b0 & E0 & K0 & a & b & Hab & Hq). rewrite Mf in E0. inversion E0; subst c0. cbn in K0. inversion K0 as [K1]. subst b0.
      assert (HGE : exists e, goode m0 h x hf e (a, b)).
      { apply in_concat in Hab as (l & Hlb & Hab). apply In_nth with (d := []) in Hlb as (j & Hj & <-).
        specialize (HG j). clear -HG Hab. induction HG; [destruct Hab|]. destruct Hab as [->|Hab]; eauto. }
      destruct HGE as (e & [[_ G1] [_ G2]]). cbn [fst snd] in *. destruct Hq as [-> | ->]; [apply G1 in HR|apply G2 in HR]; tauto.
Qed.
End Clone.
