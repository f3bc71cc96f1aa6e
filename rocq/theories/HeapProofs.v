From Verif Require Import Base ListLemmas Float Dict DictSpec PDict DictProofs PDictKeys BSet Strman StrmanSpec StrmanProofs Obj Heap HeapSpec.

Lemma bump_good : good_malloc bump.
Proof.
  intros l H. assert (HB : forall x, In x l -> x <= fold_right Z.max 0 l).
  { clear H. induction l; cbn; [tauto|]. intros x [->|Hx]; [lia|]. specialize (IHl _ Hx). lia. }
  apply HB in H. unfold bump in H. lia.
Qed.

Lemma mset_same m p c : mset m p c p = c.
Proof. unfold mset. rewrite Z.eqb_refl. reflexivity. Qed.
Lemma mset_other m p c q : q <> p -> mset m p c q = m q.
Proof. unfold mset. intro. destruct (q =? p) eqn:E; auto. lia. Qed.

(** ** Marking as depth-first search *)
Section Mark.
Variable mk : Z.

Definition black (m : mem) (p : ptr) : Prop := exists c, m p = Some c /\ c_mark c = mk.
Definition blackb (m : mem) (p : ptr) : bool := match m p with Some c => c_mark c =? mk | None => false end.
Lemma blackb_spec m p : blackb m p = true <-> black m p.
Proof.
  unfold blackb, black. destruct (m p) as [c|]; split.
  - intro. exists c. split; [auto|lia].
  - intros (c' & E & H). inversion E; subst. lia.
  - discriminate.
  - intros (c' & E & H). discriminate.
Qed.
Definition whites (m : mem) (objs : list ptr) : nat := length (filter (fun p => negb (blackb m p)) objs).

(** Objects and strings named by a list of items. *)
Definition iroot (l : list item) (p : ptr) : Prop := In (IObj p) l.

Record marks (l : list item) (st st' : mst) : Prop := {
  mk_frame : forall p, fst st' p = fst st p \/
     exists c, fst st p = Some c /\ c_mark c <> mk /\ fst st' p = Some (mkCell (c_kind c) mk);
  mk_roots : forall p, iroot l p -> black (fst st') p;
  mk_closed : forall p c q, fst st' p = Some c -> c_mark c = mk -> ~ black (fst st) p -> refers (c_kind c) q -> black (fst st') q;
  mk_sound : forall p, black (fst st') p -> ~ black (fst st) p -> reach (fst st) (iroot l) p;
  mk_strs : exists ids, snd st' = fold_left sm_gc_mark ids (snd st) /\
     forall i, In i ids <-> In (IStr i) l \/
        exists p s, fst st' p = Some (mkCell (KStr i s) mk) /\ ~ black (fst st) p
}.

Lemma frame_kind (st st' : mst) : (forall p, fst st' p = fst st p \/
     exists c, fst st p = Some c /\ c_mark c <> mk /\ fst st' p = Some (mkCell (c_kind c) mk)) ->
  forall (p : ptr) c', (fst (st' : mst)) p = Some c' -> exists c, (fst (st : mst)) p = Some c /\ c_kind c = c_kind c'.
Proof.
  intros H p c' E. destruct (H p) as [HE|(c & H1 & H2 & H3)].
  - exists c'. rewrite <- HE. auto.
  - exists c. rewrite H3 in E. inversion E; subst. auto.
Qed.
Lemma frame_black (st st' : mst) : (forall p, fst (st' : mst) p = fst (st : mst) p \/
     exists c, fst st p = Some c /\ c_mark c <> mk /\ fst st' p = Some (mkCell (c_kind c) mk)) ->
  forall p, black (fst st) p -> black (fst st') p.
Proof.
  intros H p (c & E & M). destruct (H p) as [HE|(c' & H1 & H2 & H3)].
  - exists c. rewrite HE. auto.
  - rewrite H1 in E. inversion E; subst. contradiction.
Qed.
Lemma reach_frame (m m' : mem) (R : ptr -> Prop) : (forall p c', m' p = Some c' -> exists c, m p = Some c /\ c_kind c = c_kind c') ->
  forall p, reach m' R p -> reach m R p.
Proof.
  intros H p HR. induction HR as [p Hp|p c q HR IH E Hq].
  - apply reach_root; auto.
  - destruct (H p c E) as (c0 & E0 & K0). eapply reach_step; eauto. rewrite K0. auto.
Qed.
Lemma reach_mono m (R R' : ptr -> Prop) : (forall p, R p -> R' p) -> forall p, reach m R p -> reach m R' p.
Proof.
  intros H p HR. induction HR as [p Hp|p c q HR IH E Hq].
  - apply reach_root; auto.
  - eapply reach_step; eauto.
Qed.

Lemma reach_trans m (R R' : ptr -> Prop) : (forall p, R p -> reach m R' p) -> forall p, reach m R p -> reach m R' p.
Proof.
  intros H p HR. induction HR as [p Hp|p c q HR IH E Hq]; auto. eapply reach_step; eauto.
Qed.

Lemma marks_nil st : marks [] st st.
Proof.
  constructor.
  - auto.
  - intros p [].
  - intros p c q E M HB _. exfalso. apply HB. exists c. auto.
  - intros p H1 H2. contradiction.
  - exists []. split; [reflexivity|]. intro i. cbn. split; [tauto|].
    intros [[]|(p & s & E & H)]. apply H. eexists. split; [exact E|reflexivity].
Qed.

Lemma black_dec m p : {black m p} + {~ black m p}.
Proof. destruct (blackb m p) eqn:E; [left; apply blackb_spec; auto|right]. intro H. apply blackb_spec in H. congruence. Qed.

Lemma marks_app l1 l2 st st1 st2 : marks l1 st st1 -> marks l2 st1 st2 -> marks (l1 ++ l2) st st2.
Proof.
  intros A B. pose proof (frame_kind _ _ (mk_frame _ _ _ A)) as KA. pose proof (frame_black _ _ (mk_frame _ _ _ A)) as BA.
  pose proof (frame_kind _ _ (mk_frame _ _ _ B)) as KB. pose proof (frame_black _ _ (mk_frame _ _ _ B)) as BB.
  assert (HI : forall p, iroot (l1 ++ l2) p <-> iroot l1 p \/ iroot l2 p) by (intro; unfold iroot; apply in_app_iff).
  constructor.
  - intro p. destruct (mk_frame _ _ _ B p) as [E|(c & E1 & E2 & E3)].
    + rewrite E. apply A.
    + right. destruct (mk_frame _ _ _ A p) as [E|(c' & F1 & F2 & F3)].
      * exists c. rewrite <- E. auto.
      * rewrite F3 in E1. inversion E1; subst. cbn in E2. congruence.
  - intros p Hp. apply HI in Hp as [Hp|Hp]; [apply BB; eapply mk_roots; eauto|eapply mk_roots; eauto].
  - intros p c q E M HB Hq. destruct (black_dec (fst st1) p) as [H1|H1].
    + destruct H1 as (c1 & E1 & M1). destruct (mk_frame _ _ _ B p) as [F|(c' & F1 & F2 & F3)]; [|rewrite F1 in E1; inversion E1; subst; congruence].
      rewrite F, E1 in E. inversion E; subst c1. apply BB. eapply (mk_closed _ _ _ A); eauto.
    + eapply (mk_closed _ _ _ B); eauto.
  - intros p H2 H0. destruct (black_dec (fst st1) p) as [H1|H1].
    + eapply reach_mono; [|eapply (mk_sound _ _ _ A); eauto]. intros; apply HI; auto.
    + eapply reach_mono; [|eapply reach_frame; [exact KA|eapply (mk_sound _ _ _ B); eauto]]. intros; apply HI; auto.
  - destruct (mk_strs _ _ _ A) as (ia & EA & SA). destruct (mk_strs _ _ _ B) as (ib & EB & SB).
    exists (ia ++ ib). split; [rewrite fold_left_app, <- EA; exact EB|]. intro i. rewrite !in_app_iff, SA, SB. split.
    + intros [[H|(p & s & E & H)]|[H|(p & s & E & H)]]; auto.
      * right. exists p, s. split; auto. destruct (mk_frame _ _ _ B p) as [F|(c' & F1 & F2 & F3)]; [congruence|].
        rewrite F1 in E. inversion E; subst. cbn in F2. congruence.
      * right. exists p, s. split; auto.
    + intros [[H|H]|(p & s & E & H)]; auto. destruct (black_dec (fst st1) p) as [H1|H1].
      * left. right. exists p, s. split; auto. destruct H1 as (c1 & E1 & M1).
        destruct (mk_frame _ _ _ B p) as [F|(c' & F1 & F2 & F3)]; [congruence|rewrite F1 in E1; inversion E1; subst; congruence].
      * right. right. exists p, s. auto.
Qed.

(** Closed memories: every object listed, every reference to a listed object. *)
Definition closedm (m : mem) (objs : list ptr) : Prop :=
  (forall p, In p objs -> m p <> None) /\ (forall p c q, m p = Some c -> refers (c_kind c) q -> In q objs).
Lemma closedm_frame st st' l objs : marks l st st' -> closedm (fst st) objs -> closedm (fst st') objs.
Proof.
  intros HM [H1 H2]. pose proof (frame_kind _ _ (mk_frame _ _ _ HM)) as K. split.
  - intros p Hp. destruct (mk_frame _ _ _ HM p) as [E|(c & _ & _ & E)]; rewrite E; [auto|discriminate].
  - intros p c q E Hq. destruct (K p c E) as (c0 & E0 & K0). apply (H2 p c0 q); auto. rewrite K0. auto.
Qed.
Lemma filter_len_le {A} (f g : A -> bool) l : (forall x, f x = true -> g x = true) -> (length (filter f l) <= length (filter g l))%nat.
Proof. intro H. induction l; cbn; auto. specialize (H a). destruct (f a), (g a); cbn; try lia. all: discriminate H; auto. Qed.
Lemma whites_mono st st' l objs : marks l st st' -> (whites (fst st') objs <= whites (fst st) objs)%nat.
Proof.
  intro HM. apply filter_len_le. intros x H. destruct (blackb (fst st) x) eqn:E; auto.
  apply blackb_spec in E. apply (frame_black _ _ (mk_frame _ _ _ HM)) in E. apply blackb_spec in E. rewrite E in H. discriminate.
Qed.
Lemma filter_len_lt {A} (f g : A -> bool) l x : (forall x, f x = true -> g x = true) -> In x l -> f x = false -> g x = true ->
  (length (filter f l) < length (filter g l))%nat.
Proof.
  intros H. induction l as [|a l IH]; [intros []|]. intros [->|Hx] Hf Hg; cbn.
  - rewrite Hf, Hg. cbn. pose proof (filter_len_le f g l H). lia.
  - specialize (IH Hx Hf Hg). pose proof (H a). destruct (f a), (g a); cbn; try lia. all: discriminate H0; auto.
Qed.
Lemma whites_paint m p c objs : In p objs -> m p = Some c -> c_mark c <> mk ->
  (whites (mset m p (Some (mkCell (c_kind c) mk))) objs < whites m objs)%nat.
Proof.
  intros Hp E M. apply (filter_len_lt _ _ _ p); auto.
  - intros x Hx. unfold blackb in *. destruct (Z.eq_dec x p) as [->|Hn]; [rewrite mset_same in Hx; cbn in Hx; lia|].
    rewrite mset_other in Hx by auto. auto.
  - unfold blackb. rewrite mset_same. cbn. lia.
  - unfold blackb. rewrite E. lia.
Qed.

(** Painting an object and then processing what it refers to. *)
Lemma marks_paint (m : mem) sm p c l st' :
  m p = Some c -> c_mark c <> mk ->
  (forall q, refers (c_kind c) q <-> iroot l q) -> (forall i, ~ In (IStr i) l) ->
  marks l (mset m p (Some (mkCell (c_kind c) mk)),
           match c_kind c with KStr sid _ => sm_gc_mark sm sid | _ => sm end) st' ->
  marks [IObj p] (m, sm) st'.
Proof.
  intros E M HR HNS A. set (m1 := mset m p (Some (mkCell (c_kind c) mk))) in *.
  pose proof (mk_frame _ _ _ A) as FA. cbn [fst] in FA.
  assert (Hp1 : m1 p = Some (mkCell (c_kind c) mk)) by apply mset_same.
  assert (Hm1 : forall q, q <> p -> m1 q = m q) by (intros; apply mset_other; auto).
  assert (Hp' : fst st' p = Some (mkCell (c_kind c) mk)).
  { destruct (FA p) as [F|(c' & F1 & F2 & F3)]; [congruence|]. rewrite Hp1 in F1. inversion F1; subst. cbn in F2. congruence. }
  assert (HBp : ~ black m p). { intros (c' & E' & M'). rewrite E in E'. inversion E'; subst; contradiction. }
  assert (HB1 : forall q, q <> p -> (black m1 q <-> black m q)).
  { intros q Hq. unfold black. rewrite Hm1 by auto. tauto. }
  constructor; cbn [fst snd].
  - intro q. destruct (Z.eq_dec q p) as [->|Hq].
    + right. exists c. auto.
    + destruct (FA q) as [F|(c' & F1 & F2 & F3)]; [left; rewrite F; auto|right; exists c'; rewrite Hm1 in F1; auto].
  - intros q [Hq|[]]. inversion Hq; subst. eexists. split; [exact Hp'|reflexivity].
  - intros q cq x Eq Mq HBq Hx. destruct (Z.eq_dec q p) as [->|Hq].
    + rewrite Hp' in Eq. inversion Eq; subst cq. cbn in Hx. apply HR in Hx. eapply (mk_roots _ _ _ A); eauto.
    + eapply (mk_closed _ _ _ A); eauto. cbn [fst]. rewrite HB1; auto.
  - intros q Hq HBq. destruct (Z.eq_dec q p) as [->|Hn].
    + apply reach_root. left. auto.
    + assert (HS : reach m1 (iroot l) q). { apply (mk_sound _ _ _ A); auto. cbn [fst]. rewrite HB1; auto. }
      assert (HS' : reach m (iroot l) q).
      { eapply reach_frame; [|exact HS]. intros x cx Ex. destruct (Z.eq_dec x p) as [->|Hx].
        - rewrite Hp1 in Ex. inversion Ex; subst. exists c. auto.
        - rewrite Hm1 in Ex by auto. eauto. }
      eapply reach_trans; [|exact HS']. intros x Hx.
      eapply reach_step; [apply reach_root; left; reflexivity|exact E|]. apply HR; auto.
  - destruct (mk_strs _ _ _ A) as (ids & EI & SI). cbn [fst snd] in *.
    exists (match c_kind c with KStr sid _ => sid :: ids | _ => ids end). split.
    + destruct (c_kind c); exact EI.
    + intro i.
      assert (HL : In i ids <-> exists q s, q <> p /\ fst st' q = Some (mkCell (KStr i s) mk) /\ ~ black m q).
      { rewrite SI. split.
        - intros [H|(q & s & Eq & Hq)]; [destruct (HNS _ H)|]. assert (q <> p).
          { intros ->. apply Hq. eexists. split; [exact Hp1|reflexivity]. }
          exists q, s. splits; auto. rewrite <- HB1; auto.
        - intros (q & s & Hn & Eq & Hq). right. exists q, s. split; auto. rewrite HB1; auto. }
      split.
      * intro H. right. assert (HC : In i ids \/ exists s, c_kind c = KStr i s).
        { destruct (c_kind c); cbn in H; auto. destruct H as [->|H]; eauto. }
        destruct HC as [HC|(s & HC)].
        -- apply HL in HC as (q & s & _ & Eq & Hq). eauto.
        -- exists p, s. rewrite <- HC. auto.
      * intros [[H|[]]|(q & s & Eq & Hq)]; [discriminate|]. destruct (Z.eq_dec q p) as [->|Hn].
        -- rewrite Hp' in Eq. inversion Eq as [HK]. rewrite HK. left. auto.
        -- assert (In i ids) by (apply HL; eauto 6). destruct (c_kind c); auto. right. auto.
Qed.

Lemma obj_mark_ok objs : forall fuel st p, closedm (fst st) objs -> In p objs -> (whites (fst st) objs < fuel)%nat ->
  exists st', obj_mark fuel mk st p = Ok st' /\ marks [IObj p] st st'.
Proof.
  induction fuel as [|f IH]; intros st p HC Hp HW; [lia|]. cbn [obj_mark].
  destruct (fst st p) as [c|] eqn:E; [|destruct HC as [HC _]; apply HC in Hp; congruence].
  destruct (c_mark c =? mk) eqn:EM.
  - exists st. split; auto. assert (HB : black (fst st) p) by (exists c; split; [auto|lia]).
    pose proof (marks_nil st) as A. destruct A as [A1 A2 A3 A4 A5]. constructor; auto.
    + intros q [Hq|[]]. inversion Hq; subst. auto.
    + intros q H1 H2. contradiction.
    + destruct A5 as (ids & H1 & H2). exists ids. split; auto. intro i. rewrite H2. cbn. intuition discriminate.
  - assert (M : c_mark c <> mk) by lia. set (m1 := mset (fst st) p (Some (mkCell (c_kind c) mk))).
    assert (HC1 : closedm m1 objs).
    { destruct HC as [C1 C2]. split.
      - intros q Hq. unfold m1, mset. destruct (q =? p); [discriminate|auto].
      - intros q cq x Eq Hx. unfold m1, mset in Eq. destruct (q =? p) eqn:Eqp.
        + inversion Eq; subst cq. cbn in Hx. eapply C2; eauto.
        + eapply C2; eauto. }
    assert (HW1 : (whites m1 objs < f)%nat). { pose proof (whites_paint (fst st) p c objs Hp E M). fold m1 in H. lia. }
    (* a loop over the references *)
    assert (HLoop : forall l st1, closedm (fst st1) objs -> (whites (fst st1) objs < f)%nat ->
       (forall q, iroot l q -> In q objs) -> (forall i, ~ In (IStr i) l) ->
       exists st', mark_items f mk st1 l = Ok st' /\ marks l st1 st').
    { induction l as [|i l IHl]; intros st1 HCl HWl HL HNS.
      - exists st1. split; auto. apply marks_nil.
      - destruct i as [q|i]; [|destruct (HNS i); left; auto]. cbn [mark_items mark_item].
        destruct (IH st1 q HCl) as (s1 & E1 & A1); auto. { apply HL. left. auto. }
        rewrite E1. cbn [bind].
        destruct (IHl s1) as (s2 & E2 & A2).
        + eapply closedm_frame; eauto.
        + pose proof (whites_mono _ _ _ objs A1). lia.
        + intros x Hx. apply HL. right. auto.
        + intros x Hx. apply (HNS x). right. auto.
        + exists s2. split; auto. change (IObj q :: l) with ([IObj q] ++ l). eapply marks_app; eauto. }
    destruct st as [m sm]. cbn [fst snd] in *.
    destruct (c_kind c) as [o|sid s|bs|nat ref ar] eqn:EK.
    + exists (m1, sm). split; auto. apply (marks_paint m sm p c []); auto.
      * intro q. rewrite EK. cbn. split; [tauto|intros []].
      * rewrite EK. apply marks_nil.
    + exists (m1, sm_gc_mark sm sid). split; auto. apply (marks_paint m sm p c []); auto.
      * intro q. rewrite EK. cbn. split; [tauto|intros []].
      * rewrite EK. apply marks_nil.
    + set (l := flat_map pair_items (pentries bs)).
      assert (HI : forall q, iroot l q <-> refers (KTab bs) q).
      { intro q. unfold iroot, l. rewrite in_flat_map. cbn [refers]. split.
        - intros ((a, b) & Hab & [H|[H|[]]]); inversion H; subst; eexists _, _; (split; [exact Hab|auto]).
        - intros (a & b & Hab & [-> | ->]); exists (a, b); (split; [auto|]); cbn; auto. }
      destruct (HLoop l (m1, sm)) as (st' & E1 & A1); auto.
      { intros q Hq. apply HI in Hq. destruct HC as [_ HC]. apply (HC p c q E). rewrite EK. auto. }
      { intros i Hi. unfold l in Hi. apply in_flat_map in Hi as (e & _ & [H|[H|[]]]); discriminate. }
      exists st'. split.
      * rewrite <- E1. unfold l. generalize (pentries bs) (m1, sm). clear.
        induction l as [|[k d] t IHt]; intros st0; [reflexivity|]. cbn [flat_map pair_items app mark_items mark_item fst snd].
        destruct (obj_mark f mk st0 k) as [s1| | |]; cbn [bind]; auto.
        destruct (obj_mark f mk s1 d) as [s2| | |]; cbn [bind]; auto.
      * apply (marks_paint m sm p c l); auto.
        -- intro q. rewrite EK, HI. tauto.
        -- intros i Hi. unfold l in Hi. apply in_flat_map in Hi as (e & _ & [H|[H|[]]]); discriminate.
        -- rewrite EK. auto.
    + set (l := map IObj ar).
      assert (HI : forall q, iroot l q <-> refers (KClos nat ref ar) q).
      { intro q. unfold iroot, l. rewrite in_map_iff. cbn [refers]. split.
        - intros (x & H & Hx). inversion H; subst. auto.
        - intro H. eauto. }
      destruct (HLoop l (m1, sm)) as (st' & E1 & A1); auto.
      { intros q Hq. apply HI in Hq. destruct HC as [_ HC]. apply (HC p c q E). rewrite EK. auto. }
      { intros i Hi. unfold l in Hi. apply in_map_iff in Hi as (e & H & _); discriminate. }
      exists st'. split.
      * rewrite <- E1. unfold l. generalize ar (m1, sm). clear.
        induction ar as [|d t IHt]; intros st0; [reflexivity|]. cbn [map mark_items mark_item].
        destruct (obj_mark f mk st0 d) as [s1| | |]; cbn [bind]; auto.
      * apply (marks_paint m sm p c l); auto.
        -- intro q. rewrite EK, HI. tauto.
        -- intros i Hi. unfold l in Hi. apply in_map_iff in Hi as (e & H & _); discriminate.
        -- rewrite EK. auto.
Qed.

Lemma mark_items_ok objs fuel : forall l st, closedm (fst st) objs -> (whites (fst st) objs < fuel)%nat ->
  (forall q, iroot l q -> In q objs) ->
  exists st', mark_items fuel mk st l = Ok st' /\ marks l st st'.
Proof.
  induction l as [|i l IHl]; intros st HC HW HL.
  - exists st. split; auto. apply marks_nil.
  - assert (HX : exists s1, mark_item fuel mk st i = Ok s1 /\ marks [i] st s1).
    { destruct i as [q|sid]; cbn [mark_item].
      - apply (obj_mark_ok objs); auto. apply HL. left. auto.
      - eexists. split; [reflexivity|]. pose proof (marks_nil st) as A. destruct A as [A1 A2 A3 A4 A5]. constructor; cbn [fst snd]; auto.
        + intros p [H|[]]. discriminate.
        + intros p H1 H2. contradiction.
        + exists [sid]. split; [reflexivity|]. intro j. cbn. split.
          * intros [->|[]]. auto.
          * intros [[H|[]]|(p & s & E & H)]; [inversion H; auto|]. destruct H. eexists. split; [exact E|reflexivity]. }
    destruct HX as (s1 & E1 & A1). cbn [mark_items]. rewrite E1. cbn [bind].
    destruct (IHl s1) as (s2 & E2 & A2).
    + eapply closedm_frame; eauto.
    + pose proof (whites_mono _ _ _ objs A1). lia.
    + intros x Hx. apply HL. right. auto.
    + exists s2. split; auto. change (i :: l) with ([i] ++ l). eapply marks_app; eauto.
Qed.

(** ** Sweeping *)
Lemma del_app_mid {A} (l r : list A) x : del (l ++ x :: r) (length l) = l ++ r.
Proof. induction l; cbn; congruence. Qed.

Lemma sweep_ok (m0 : mem) : forall n (m : mem) objs done,
  n = length objs -> NoDup (objs ++ done) -> (forall p, In p objs -> m p = m0 p) -> (forall p, In p objs -> m0 p <> None) ->
  exists m', sweep n mk m (objs ++ done) = Ok (m', filter (blackb m0) objs ++ done) /\
    forall p, m' p = if existsb (Z.eqb p) objs && negb (blackb m0 p) then None else m p.
Proof.
  induction n as [|n IH]; intros m objs done Hn HND HM HS.
  - destruct objs; [|discriminate]. exists m. split; auto.
  - destruct (exists_last (l:=objs)) as (l & p & ->); [destruct objs; [discriminate|congruence]|].
    rewrite app_length in Hn. cbn in Hn. assert (n = length l) by lia. subst n.
    cbn [sweep]. rewrite <- app_assoc. cbn [app].
    rewrite nth_error_app2 by lia. rewrite Nat.sub_diag. cbn [nth_error].
    assert (Hp : In p (l ++ [p])) by (apply in_or_app; right; left; auto).
    rewrite (HM p Hp). destruct (m0 p) as [c|] eqn:Ec; [|destruct (HS p Hp); auto].
    assert (HNp : ~ In p l).
    { rewrite <- app_assoc in HND. cbn in HND. apply NoDup_remove_2 in HND. intro; apply HND. apply in_or_app; auto. }
    assert (HEx : forall q, existsb (Z.eqb q) (l ++ [p]) = existsb (Z.eqb q) l || (q =? p)).
    { intro q. rewrite existsb_app. cbn. rewrite orb_false_r. reflexivity. }
    assert (HEp : existsb (Z.eqb p) l = false).
    { destruct (existsb (Z.eqb p) l) eqn:EE; auto. apply existsb_exists in EE as (x & Hx & Hxp). assert (x = p) by lia. subst. contradiction. }
    rewrite filter_app. cbn [filter]. assert (HB : blackb m0 p = (c_mark c =? mk)) by (unfold blackb; rewrite Ec; auto).
    rewrite HB. destruct (c_mark c =? mk) eqn:EM.
    + destruct (IH m l (p :: done)) as (m' & E1 & E2); auto.
      * rewrite <- app_assoc in HND. exact HND.
      * intros q Hq. apply HM. apply in_or_app; auto.
      * intros q Hq. apply HS. apply in_or_app; auto.
      * exists m'. split; [rewrite E1, <- app_assoc; auto|]. intro q. rewrite E2, HEx.
        destruct (q =? p) eqn:Eq; [|rewrite orb_false_r; auto]. assert (q = p) by lia. subst q.
        rewrite HEp, HB. reflexivity.
    + rewrite del_app_mid. rewrite app_nil_r.
      destruct (IH (mset m p None) l done) as (m' & E1 & E2); auto.
      * rewrite <- app_assoc in HND. cbn in HND. eapply NoDup_remove_1; eauto.
      * intros q Hq. rewrite mset_other by (intros ->; contradiction). apply HM. apply in_or_app; auto.
      * intros q Hq. apply HS. apply in_or_app; auto.
      * exists m'. split; [auto|]. intro q. rewrite E2, HEx. unfold mset. destruct (q =? p) eqn:Eq; [|rewrite orb_false_r; auto].
        assert (q = p) by lia. subst q. rewrite HEp, HB. reflexivity.
Qed.
End Mark.

(** ** The invariant of the heap between operations *)
Record HInv (h : heap) : Prop := {
  hi_nd : NoDup (h_objs h);
  hi_dom : forall p, In p (h_objs h) <-> h_mem h p <> None;
  hi_mark : forall p c, h_mem h p = Some c -> c_mark c = h_marker h;
  hi_rng : 0 <= h_marker h < 65536;
  hi_refs : forall p c q, h_mem h p = Some c -> refers (c_kind c) q -> In q (h_objs h);
  hi_strs : exists M, SInv (h_str h) M /\ SIdle (h_str h) /\
     forall p c i s, h_mem h p = Some c -> c_kind c = KStr i s -> exists q, M s = Some (i, q)
}.

Lemma HInv_new : HInv heap_new.
Proof.
  constructor; cbn.
  - constructor.
  - intro p. split; [tauto|congruence].
  - discriminate.
  - lia.
  - discriminate.
  - destruct SInv_new. eexists. splits; eauto. discriminate.
Qed.

Lemma root_items_spec r p : iroot (root_items r) p <-> is_root r p.
Proof.
  unfold iroot, root_items, is_root. rewrite !in_app_iff, !in_flat_map, in_map_iff.
  assert (HP : forall (l : list (ptr * ptr)), (exists x, In x l /\ In (IObj p) (pair_items x)) <-> exists k d, In (k, d) l /\ (p = k \/ p = d)).
  { intro l. split.
    - intros ((k, d) & Hx & [H|[H|[]]]); inversion H; subst; eexists _, _; (split; [exact Hx|auto]).
    - intros (k & d & H & [-> | ->]); exists (k, d); (split; [auto|cbn; auto]). }
  assert (HM : forall (l : list (list ptr)), (exists x, In x l /\ In (IObj p) (map IObj x)) <-> exists s, In s l /\ In p s).
  { intro l. split.
    - intros (x & Hx & H). apply in_map_iff in H as (y & Hy & H). inversion Hy; subst. eauto.
    - intros (x & Hx & H). exists x. split; auto. apply in_map; auto. }
  rewrite !HP, !HM.
  assert (HV : (exists x, In x (r_vstigs r) /\ In (IObj p) (vstig_items x)) <->
     exists v, In v (r_vstigs r) /\ (v_onconflict v = Some p \/ v_onconflictlost v = Some p \/
        exists k d, In (k, d) (v_elems v) /\ (p = k \/ p = d))).
  { split; intros (v & Hv & H); exists v; (split; [auto|]); unfold vstig_items in *; rewrite !in_app_iff, in_flat_map, HP in *.
    - destruct H as [H|[H|H]]; auto.
      + left. destruct (v_onconflict v); cbn in H; [destruct H as [H|[]]; inversion H; auto|tauto].
      + right. left. destruct (v_onconflictlost v); cbn in H; [destruct H as [H|[]]; inversion H; auto|tauto].
    - destruct H as [H|[H|H]]; auto.
      + left. rewrite H. left; auto.
      + right. left. rewrite H. left; auto. }
  rewrite HV.
  assert (HL : (exists x, In x (r_listeners r) /\ In (IObj p) (listener_items x)) <-> exists t, In (t, p) (r_listeners r)).
  { split.
    - intros ((t, q) & Hx & [H|[H|[]]]); [discriminate|]. inversion H; subst. eauto.
    - intros (t & H). exists (t, p). split; auto. right; left; auto. }
  rewrite HL.
  assert (HG : (exists x, IObj x = IObj p /\ In x (r_gsyms r)) <-> In p (r_gsyms r)).
  { split; [intros (x & H & Hx); inversion H; subst; auto|eauto]. }
  rewrite HG. split.
  - intros [H|[H|[H|[H|[H|[H|[H|H]]]]]]]; auto 6;
      (right; right; right; right; right; destruct H as (k & d & H1 & H2); exists k, d; auto).
  - intros [H|[H|[H|[H|[H|(k & d & [H|[H|H]] & H2)]]]]]; auto 6.
    + right; right; right; right; right; left. eauto.
    + right; right; right; right; right; right; left. eauto.
    + right; right; right; right; right; right; right. eauto.
Qed.
Lemma root_items_strs r i : In (IStr i) (root_items r) <-> is_root_str r i.
Proof.
  unfold root_items, is_root_str. rewrite !in_app_iff, !in_flat_map, in_map_iff. split.
  - intros [(x & H & _)|[(x & _ & H)|[(x & _ & H)|[(x & _ & H)|[((t, p) & Hx & H)|[(x & _ & H)|[(x & _ & H)|(x & _ & H)]]]]]]];
      try discriminate; try (apply in_map_iff in H as (y & H & _); discriminate);
      try (destruct H as [H|[H|[]]]; discriminate).
    + unfold vstig_items in H. rewrite !in_app_iff, in_flat_map in H. destruct H as [H|[H|(y & _ & [H|[H|[]]])]]; try discriminate.
      * destruct (v_onconflict x); cbn in H; [destruct H as [H|[]]; discriminate|tauto].
      * destruct (v_onconflictlost x); cbn in H; [destruct H as [H|[]]; discriminate|tauto].
    + destruct H as [H|[H|[]]]; inversion H; subst. eauto.
  - intros (p & H). right; right; right; right; left. exists (i, p). split; auto. left; auto.
Qed.

(** One collection. *)
Theorem gc_spec h r : HInv h -> (forall p, is_root r p -> In p (h_objs h)) -> (forall i, is_root_str r i -> 0 <= i < 65536) ->
  h_max h <= zlen (h_objs h) ->
  exists h' keep, h_gc h r = Ok h' /\ HInv h' /\ h_objs h' = filter keep (h_objs h) /\
    (forall p, In p (h_objs h) -> (keep p = true <-> reach (h_mem h) (is_root r) p)) /\
    (forall p c, h_mem h p = Some c -> reach (h_mem h) (is_root r) p -> h_mem h' p = Some (mkCell (c_kind c) (h_marker h'))) /\
    (forall p, ~ reach (h_mem h) (is_root r) p -> h_mem h' p = None) /\
    (exists ids, sm_gc (h_str h) ids = Ok (h_str h') /\
       forall i, In i ids <-> is_root_str r i \/ exists p c s, h_mem h p = Some c /\ c_kind c = KStr i s /\ reach (h_mem h) (is_root r) p).
Proof.
  intros HI HR HRS HX. unfold h_gc. destruct (zlen (h_objs h) <? h_max h) eqn:EX; [lia|].
  set (mk := wrap16 (h_marker h + 1)).
  assert (Hmk : mk <> h_marker h). { pose proof (hi_rng h HI). unfold mk, wrap16. lia. }
  assert (Hmkr : 0 <= mk < 65536) by apply wrap16_rng.
  assert (HNB : forall p, ~ black mk (h_mem h) p).
  { intros p (c & E & M). apply (hi_mark h HI) in E. congruence. }
  set (st0 := (h_mem h, sm_gc_clear (h_str h))).
  assert (HC : closedm (fst st0) (h_objs h)).
  { split; cbn.
    - intros p Hp. apply (hi_dom h HI); auto.
    - intros p c q E Hq. eapply (hi_refs h HI); eauto. }
  destruct (mark_items_ok mk (h_objs h) (S (length (h_objs h))) (root_items r) st0 HC) as (st1 & E1 & A).
  { unfold whites. pose proof (filter_len_le (fun p => negb (blackb mk (fst st0) p)) (fun _ => true) (h_objs h) ltac:(auto)) as HL.
    assert (length (filter (fun _ : ptr => true) (h_objs h)) = length (h_objs h)). { clear. induction (h_objs h); cbn; auto. }
    lia. }
  { intros q Hq. apply HR. apply root_items_spec; auto. }
  fold st0. rewrite E1. destruct st1 as [m1 sm1]. cbn [bind].
  assert (HRT : forall p, reach (h_mem h) (iroot (root_items r)) p <-> reach (h_mem h) (is_root r) p).
  { intro p. split; apply reach_mono; intro; apply root_items_spec. }
  (* black after marking = reachable *)
  assert (HBR : forall p, black mk m1 p <-> reach (h_mem h) (is_root r) p).
  { intro p. split.
    - intro HB. apply HRT. apply (mk_sound _ _ _ _ A p HB). apply HNB.
    - intro HRc. apply HRT in HRc. induction HRc as [p Hp|p c q HRc IH E Hq].
      + apply (mk_roots _ _ _ _ A). auto.
      + destruct IH as (c1 & Ec1 & M1). destruct (frame_kind mk _ _ (mk_frame _ _ _ _ A) p c1 Ec1) as (c0 & Ec0 & K0).
        cbn in Ec0. rewrite E in Ec0. inversion Ec0; subst c0.
        apply (mk_closed _ _ _ _ A p c1 q); auto. rewrite <- K0. auto. }
  assert (HM1 : forall p, In p (h_objs h) -> m1 p <> None).
  { intros p Hp. apply (proj1 (closedm_frame mk _ _ _ _ A HC)). auto. }
  destruct (sweep_ok mk m1 (length (h_objs h)) m1 (h_objs h) []) as (m2 & E2 & HM2); auto.
  { rewrite app_nil_r. apply HI. }
  rewrite !app_nil_r in E2. rewrite E2. cbn [bind].
  destruct (mk_strs _ _ _ _ A) as (ids & EI & SI). cbn [snd st0] in EI.
  destruct (hi_strs h HI) as (M & SV & SD & SM).
  assert (HIds : forall i, In i ids <-> is_root_str r i \/ exists p c s, h_mem h p = Some c /\ c_kind c = KStr i s /\ reach (h_mem h) (is_root r) p).
  { intro i. rewrite SI, root_items_strs. cbn [fst]. split; (intros [H|H]; [auto|right]).
    - destruct H as (p & s & E & _). destruct (frame_kind mk _ _ (mk_frame _ _ _ _ A) p _ E) as (c0 & Ec0 & K0).
      exists p, c0, s. splits; auto. apply HBR. eexists. split; [exact E|reflexivity].
    - destruct H as (p & c & s & E & K & HRc). exists p, s. split; [|apply HNB].
      apply HBR in HRc as (c1 & Ec1 & M1). destruct (frame_kind mk _ _ (mk_frame _ _ _ _ A) p c1 Ec1) as (c0 & Ec0 & K0).
      cbn in Ec0. rewrite E in Ec0. inversion Ec0; subst c0. cbn [fst]. rewrite Ec1. destruct c1; cbn in *. congruence. }
  assert (HIR : Forall (fun i => 0 <= i < 65536) ids).
  { apply Forall_forall. intros i Hi. apply HIds in Hi as [Hi|(p & c & s & E & K & _)]; auto.
    destruct (SM p c i s E K) as (q & Hq). eapply si_rng; eauto. }
  destruct (gc_ok (h_str h) M ids SV SD HIR) as (sm2 & M' & EG & [_ HS] & SV' & SD').
  unfold sm_gc in EG. rewrite <- EI in EG. cbn [snd] in EG. rewrite EG. cbn [bind].
  assert (HOb : forall p, In p (h_objs h) -> (blackb mk m1 p = true <-> reach (h_mem h) (is_root r) p)).
  { intros p Hp. rewrite blackb_spec. apply HBR. }
  assert (HRL : forall p, reach (h_mem h) (is_root r) p -> In p (h_objs h)).
  { intros p Hp. induction Hp as [p Hp|p c q Hp IH E Hq]; auto. eapply (hi_refs h HI); eauto. }
  assert (HEX : forall p, existsb (Z.eqb p) (h_objs h) = true <-> In p (h_objs h)).
  { intro p. rewrite existsb_exists. split; [intros (x & Hx & He); assert (p = x) by lia; subst; auto|intro; exists p; split; [auto|lia]]. }
  assert (HK : forall p c, h_mem h p = Some c -> reach (h_mem h) (is_root r) p -> m2 p = Some (mkCell (c_kind c) mk)).
  { intros p c E HRc. rewrite HM2. assert (HB := HRc). apply HBR in HB. rewrite (proj2 (blackb_spec mk m1 p) HB), andb_false_r.
    destruct HB as (c1 & Ec1 & M1). destruct (frame_kind mk _ _ (mk_frame _ _ _ _ A) p c1 Ec1) as (c0 & Ec0 & K0).
    cbn in Ec0. rewrite E in Ec0. inversion Ec0; subst c0. rewrite Ec1. destruct c1; cbn in *. congruence. }
  assert (HD : forall p, ~ reach (h_mem h) (is_root r) p -> m2 p = None).
  { intros p HN. rewrite HM2. destruct (existsb (Z.eqb p) (h_objs h)) eqn:EE.
    - assert (blackb mk m1 p = false). { destruct (blackb mk m1 p) eqn:EB; auto. apply blackb_spec, HBR in EB. contradiction. }
      rewrite H. reflexivity.
    - cbn. destruct (m1 p) as [c1|] eqn:Ec1; auto.
      destruct (frame_kind mk _ _ (mk_frame _ _ _ _ A) p c1 Ec1) as (c0 & Ec0 & K0). cbn in Ec0.
      assert (In p (h_objs h)) by (apply (hi_dom h HI); congruence). apply HEX in H. congruence. }
  assert (HDOM : forall p c2, m2 p = Some c2 -> reach (h_mem h) (is_root r) p /\ exists c, h_mem h p = Some c /\ c2 = mkCell (c_kind c) mk).
  { intros p c2 E. assert (HRc : reach (h_mem h) (is_root r) p).
    { apply HBR. destruct (black_dec mk m1 p) as [|HN]; auto. assert (m2 p = None) by (apply HD; rewrite <- HBR; auto). congruence. }
    split; auto. destruct (h_mem h p) as [c|] eqn:Ec.
    - exists c. split; auto. pose proof (HK p c Ec HRc). congruence.
    - apply HRL in HRc. apply (hi_dom h HI) in HRc. congruence. }
  eexists _, (blackb mk m1). split; [reflexivity|]. cbn [h_mem h_objs h_marker h_str].
  split; [|split; [reflexivity|split; [exact HOb|split; [exact HK|split; [exact HD|]]]]].
  - constructor; cbn [h_mem h_objs h_marker h_str].
    + apply NoDup_filter. apply HI.
    + intro p. rewrite filter_In. split.
      * intros [Hp HB]. apply HOb in HB; auto. apply (hi_dom h HI) in Hp. destruct (h_mem h p) as [c|] eqn:Ec; [|congruence].
        rewrite (HK p c Ec HB). discriminate.
      * intro HN. destruct (m2 p) as [c2|] eqn:E; [|congruence]. destruct (HDOM p c2 E) as [HRc _]. split; [auto|]. apply HOb; auto.
    + intros p c2 E. destruct (HDOM p c2 E) as (_ & c & _ & ->). reflexivity.
    + auto.
    + intros p c2 q E Hq. destruct (HDOM p c2 E) as (HRc & c & Ec & ->). cbn in Hq.
      assert (HRq : reach (h_mem h) (is_root r) q) by (eapply reach_step; eauto).
      apply filter_In. split; [auto|]. apply HOb; auto.
    + exists M'. splits; auto. intros p c2 i s E K. destruct (HDOM p c2 E) as (HRc & c & Ec & ->). cbn in K.
      destruct (SM p c i s Ec K) as (q & Hq). exists q. rewrite HS, Hq.
      assert (Hin : In i ids) by (apply HIds; eauto 8).
      assert (existsb (Z.eqb i) ids = true) by (apply existsb_exists; exists i; split; [auto|lia]).
      rewrite H, orb_true_r. reflexivity.
  - exists ids. split; [unfold sm_gc; rewrite <- EI; exact EG|exact HIds].
Qed.
