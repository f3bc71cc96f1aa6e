(** Proofs about buzzdarray_sort (C03) and about out-of-range writes (C02). *)
From Coq Require Import Sorting.Sorted.
From Verif Require Import Base ListLemmas Darray DarraySpec DarrayRun DarrayProofs.

Section S.
Context {A : Type}.
Implicit Types (d : darray A) (l P M Q : list A).

Lemma rep_get d l esz P x Q i :
  Rep d l esz -> l = P ++ x :: Q -> i = zlen P -> da_get d i = Ok x.
Proof.
  intros HR -> ->. eapply get_ok; [exact HR|apply zlen_nonneg|].
  unfold zlen. rewrite Nat2Z.id, nth_error_app2 by lia. rewrite Nat.sub_diag. reflexivity.
Qed.

Lemma rep_write d l esz P x y Q i :
  Rep d l esz -> l = P ++ x :: Q -> i = zlen P ->
  exists d', slot_write d (Z.to_nat i) y = Ok d' /\ Rep d' (P ++ y :: Q) esz.
Proof.
  intros (He & He0 & Hs & [rest Hm] & HL & Hc) -> ->. unfold slot_write.
  unfold zlen at 1 2. rewrite Nat2Z.id.
  destruct (length P <? length (d_mem d))%nat eqn:E.
  2:{ rewrite Hm, app_length, map_length, app_length in E. cbn [length] in E. lia. }
  eexists; split; [reflexivity|].
  repeat split; cbn [d_esz d_size d_mem d_cap]; auto; try tauto.
  - rewrite Hs, !zlen_app, !zlen_cons. reflexivity.
  - exists rest. rewrite Hm, !map_app. cbn [map]. rewrite <- !app_assoc.
    rewrite upd_app_r by (rewrite map_length; lia). rewrite map_length, Nat.sub_diag. reflexivity.
  - unfold zlen. rewrite upd_length. exact HL.
Qed.

Lemma swap_ok d esz P x M y Q i j :
  Rep d (P ++ x :: M ++ y :: Q) esz -> i = zlen P -> j = zlen P + 1 + zlen M ->
  exists d', slot_swap d i j = Ok d' /\ Rep d' (P ++ y :: M ++ x :: Q) esz.
Proof.
  intros HR Hi Hj. unfold slot_swap.
  rewrite (rep_get d _ esz P x (M ++ y :: Q) i HR eq_refl Hi). cbn [bind].
  assert (Hj' : j = zlen (P ++ x :: M)) by (rewrite zlen_app, zlen_cons; lia).
  rewrite (rep_get d _ esz (P ++ x :: M) y Q j HR) by (rewrite <- ?app_assoc; auto). cbn [bind].
  destruct (rep_write d _ esz P x y (M ++ y :: Q) i HR eq_refl Hi) as (d1 & H1 & HR1).
  rewrite H1. cbn [bind].
  assert (Hj'' : j = zlen (P ++ y :: M)) by (rewrite zlen_app, zlen_cons; lia).
  destruct (rep_write d1 _ esz (P ++ y :: M) y x Q j HR1) as (d2 & H2 & HR2);
    [rewrite <- app_assoc; reflexivity|exact Hj''|].
  exists d2. split; [exact H2|]. rewrite <- app_assoc in HR2. exact HR2.
Qed.

Lemma swap_same d esz P x Q i :
  Rep d (P ++ x :: Q) esz -> i = zlen P ->
  exists d', slot_swap d i i = Ok d' /\ Rep d' (P ++ x :: Q) esz.
Proof.
  intros HR Hi. unfold slot_swap.
  rewrite (rep_get d _ esz P x Q i HR eq_refl Hi). cbn [bind].
  destruct (rep_write d _ esz P x x Q i HR eq_refl Hi) as (d1 & H1 & HR1). rewrite H1. cbn [bind].
  apply (rep_write d1 _ esz P x x Q i HR1 eq_refl Hi).
Qed.

Variable cmp : A -> A -> Z.

(** One partition pass. [P]: before the segment, [Sm]: elements found smaller than the
    pivot, [Lg]: the others, [R]: not yet inspected, [p]: the pivot, [Q]: after it. *)
Lemma part_loop_ok esz P p Q hi :
  forall R d Sm Lg k pt,
  Rep d (P ++ Sm ++ Lg ++ R ++ p :: Q) esz ->
  Forall (fun a => cmp a p < 0) Sm -> Forall (fun a => ~ cmp a p < 0) Lg ->
  pt = zlen P + zlen Sm -> k = pt + zlen Lg -> hi = k + zlen R ->
  exists d' Sm' Lg', part_loop cmp (length R) d k pt hi = Ok (d', zlen P + zlen Sm') /\
    Rep d' (P ++ Sm' ++ Lg' ++ p :: Q) esz /\
    Permutation (Sm ++ Lg ++ R) (Sm' ++ Lg') /\
    Forall (fun a => cmp a p < 0) Sm' /\ Forall (fun a => ~ cmp a p < 0) Lg'.
Proof.
  induction R as [|a R IH]; intros d Sm Lg k pt HR HS HLg Hpt Hk Hhi.
  - exists d, Sm, Lg. cbn [length part_loop]. rewrite Hpt. split; [reflexivity|].
    cbn in HR. rewrite app_nil_r. auto.
  - cbn [length part_loop].
    rewrite (rep_get d _ esz (P ++ Sm ++ Lg) a (R ++ p :: Q) k HR).
    2:{ apps; reflexivity. }
    2:{ rewrite !zlen_app. lia. }
    cbn [bind]. rewrite zlen_cons in Hhi.
    rewrite (rep_get d _ esz (P ++ Sm ++ Lg ++ a :: R) p Q hi HR).
    2:{ apps; reflexivity. }
    2:{ rewrite !zlen_app, zlen_cons. lia. }
    cbn [bind].
    destruct (cmp a p <? 0) eqn:Ec.
    + destruct Lg as [|b Lg].
      * rewrite zlen_nil in Hk. destruct (k =? pt) eqn:Ek; [|lia]. cbn [bind].
        destruct (IH d (Sm ++ [a]) [] (k + 1) (pt + 1)) as (d' & Sm' & Lg' & H1 & H2 & H3 & H4).
        -- rewrite <- app_assoc. exact HR.
        -- apply Forall_app; split; auto. constructor; [lia|constructor].
        -- constructor.
        -- rewrite zlen_app, zlen_cons, zlen_nil. lia.
        -- rewrite zlen_nil. lia.
        -- lia.
        -- exists d', Sm', Lg'. split; [exact H1|]. split; [exact H2|]. split; [|exact H4].
           rewrite <- H3. rewrite <- app_assoc. reflexivity.
      * rewrite zlen_cons in Hk. pose proof (zlen_nonneg Lg).
        destruct (k =? pt) eqn:Ek; [lia|].
        assert (Hswap : exists d2, slot_swap d k pt = Ok d2 /\
                        Rep d2 (P ++ (Sm ++ [a]) ++ (Lg ++ [b]) ++ R ++ p :: Q) esz).
        { unfold slot_swap.
          rewrite (rep_get d _ esz (P ++ Sm ++ b :: Lg) a (R ++ p :: Q) k HR).
          2:{ apps; reflexivity. }
          2:{ rewrite !zlen_app, zlen_cons. lia. }
          cbn [bind].
          rewrite (rep_get d _ esz (P ++ Sm) b (Lg ++ a :: R ++ p :: Q) pt HR).
          2:{ apps; reflexivity. }
          2:{ rewrite !zlen_app. lia. }
          cbn [bind].
          destruct (rep_write d _ esz (P ++ Sm ++ b :: Lg) a b (R ++ p :: Q) k HR)
            as (e1 & E1 & RE1).
          { apps; reflexivity. }
          { rewrite !zlen_app, zlen_cons. lia. }
          rewrite E1. cbn [bind].
          destruct (rep_write e1 _ esz (P ++ Sm) b a (Lg ++ b :: R ++ p :: Q) pt RE1)
            as (e2 & E2 & RE2).
          { apps; reflexivity. }
          { rewrite !zlen_app. lia. }
          exists e2. split; [exact E2|].
          apps; apps_in RE2; exact RE2. }
        destruct Hswap as (d2 & Hsw2 & HR2). rewrite Hsw2. cbn [bind].
        apply Forall_cons_iff in HLg as [Hb HLg].
        destruct (IH d2 (Sm ++ [a]) (Lg ++ [b]) (k + 1) (pt + 1)) as (d' & Sm' & Lg' & H1 & H2 & H3 & H4).
        -- exact HR2.
        -- apply Forall_app; split; auto. constructor; [lia|constructor].
        -- apply Forall_app; split; auto.
        -- rewrite zlen_app, zlen_cons, zlen_nil. lia.
        -- rewrite zlen_app, zlen_cons, zlen_nil. lia.
        -- lia.
        -- exists d', Sm', Lg'. split; [exact H1|]. split; [exact H2|]. split; [|exact H4].
           rewrite <- H3. rewrite <- !app_assoc. apply Permutation_app_head. cbn [app].
           transitivity (b :: a :: Lg ++ R).
           ++ constructor. symmetry. apply Permutation_middle.
           ++ rewrite perm_swap. constructor. rewrite Permutation_middle. reflexivity.
    + destruct (IH d Sm (Lg ++ [a]) (k + 1) pt) as (d' & Sm' & Lg' & H1 & H2 & H3 & H4).
      * apps; exact HR.
      * exact HS.
      * apply Forall_app; split; auto. constructor; [lia|constructor].
      * exact Hpt.
      * rewrite zlen_app, zlen_cons, zlen_nil. lia.
      * lia.
      * exists d', Sm', Lg'. split; [exact H1|]. split; [exact H2|]. split; [|exact H4].
        rewrite <- H3. apps; reflexivity.
Qed.

Lemma part_ok d esz P s Q lo hi :
  Rep d (P ++ s ++ Q) esz -> (2 <= length s)%nat ->
  zlen P + zlen s < 2 ^ 32 ->
  lo = zlen P -> hi = zlen P + zlen s - 1 ->
  exists d' Sm p Lg, da_part cmp d lo hi = Ok (d', zlen P + zlen Sm) /\
    Rep d' (P ++ (Sm ++ p :: Lg) ++ Q) esz /\ Permutation s (Sm ++ p :: Lg) /\
    Forall (fun a => cmp a p < 0) Sm /\ Forall (fun a => ~ cmp a p < 0) Lg.
Proof.
  intros HR Hlen Hb Hlo Hhi. unfold da_part.
  destruct (exists_last (l := s)) as [R [p ->]]; [intro; subst; simpl in Hlen; lia|].
  rewrite zlen_app, zlen_cons, zlen_nil in *.
  replace (Z.to_nat (hi - lo)) with (length R) by (unfold zlen in *; lia).
  destruct (part_loop_ok esz P p Q hi R d [] [] lo lo) as (d1 & Sm & Lg & H1 & H2 & H3 & H4 & H5).
  { cbn [app]. rewrite <- app_assoc in HR. exact HR. }
  1,2: constructor.
  1,2: rewrite zlen_nil; lia.
  { lia. }
  rewrite H1. cbn [bind]. cbn [app] in H3.
  assert (HlR : zlen R = zlen Sm + zlen Lg).
  { apply Permutation_length in H3. rewrite app_length in H3. unfold zlen. lia. }
  pose proof (zlen_nonneg Sm). pose proof (zlen_nonneg P). pose proof (zlen_nonneg Lg).
  rewrite wrap32_id by lia.
  destruct Lg as [|b Lg].
  - destruct (swap_same d1 esz (P ++ Sm) p Q hi) as (d2 & Hs & HR2).
    + rewrite <- app_assoc. exact H2.
    + rewrite zlen_app, zlen_nil in *. lia.
    + replace (zlen P + zlen Sm) with hi by (rewrite zlen_nil in *; lia).
      rewrite Hs. cbn [bind]. exists d2, Sm, p, []. split.
      { do 2 f_equal. rewrite zlen_nil in *; lia. }
      split; [apps; apps_in HR2; exact HR2|].
      split; [|split; auto]. rewrite app_nil_r in H3. apply Permutation_app; auto.
  - rewrite zlen_cons in *.
    destruct (swap_ok d1 esz (P ++ Sm) b Lg p Q (zlen P + zlen Sm) hi) as (d2 & Hs & HR2).
    + rewrite <- app_assoc. exact H2.
    + rewrite zlen_app. lia.
    + rewrite zlen_app. lia.
    + rewrite Hs. cbn [bind]. exists d2, Sm, p, (Lg ++ [b]). split; [reflexivity|].
      split; [apps; apps_in HR2; exact HR2|].
      apply Forall_cons_iff in H5 as [Hb5 H5].
      split; [|split; [auto|apply Forall_app; auto]].
      rewrite H3, <- !app_assoc. apply Permutation_app_head.
      cbn [app]. change (b :: Lg ++ [p]) with ((b :: Lg) ++ [p]).
      rewrite <- Permutation_cons_append. constructor. apply Permutation_cons_append.
Qed.

(** What the proof of sortedness needs about the segment handed to the recursive calls. *)
Lemma qsort_ok esz :
  forall fuel s d P Q lo hi,
  (length s < fuel)%nat ->
  Rep d (P ++ s ++ Q) esz -> zlen P + zlen s < 2 ^ 32 ->
  lo = zlen P -> hi = zlen P + zlen s - 1 ->
  exists d' s', da_qsort fuel cmp d lo hi = Ok d' /\
    Rep d' (P ++ s' ++ Q) esz /\ Permutation s s' /\
    (total_preorder cmp -> StronglySorted (fun a b => cmp a b <= 0) s').
Proof.
  induction fuel as [|f IH]; intros s d P Q lo hi Hf HR Hb Hlo Hhi; [lia|].
  cbn [da_qsort]. destruct (lo <? hi) eqn:E.
  - destruct (part_ok d esz P s Q lo hi HR) as (d1 & Sm & p & Lg & H1 & H2 & H3 & H4 & H5);
      auto. { unfold zlen in *; lia. }
    rewrite H1. cbn [bind].
    pose proof (Permutation_length H3) as HLn. rewrite app_length in HLn. cbn [length] in HLn.
    assert (Hzl : zlen s = zlen Sm + 1 + zlen Lg) by (unfold zlen; lia).
    pose proof (zlen_nonneg Sm). pose proof (zlen_nonneg Lg).
    destruct (IH Sm d1 P (p :: Lg ++ Q) lo (zlen P + zlen Sm - 1)) as (d2 & S2 & H6 & H7 & H8 & H9);
      try lia. { apps_in H2. exact H2. }
    rewrite H6. cbn [bind].
    assert (HS2 : zlen S2 = zlen Sm).
    { unfold zlen. rewrite (Permutation_length H8). reflexivity. }
    destruct (IH Lg d2 (P ++ S2 ++ [p]) Q (zlen P + zlen Sm + 1) hi)
      as (d3 & L3 & H10 & H11 & H12 & H13); try lia.
    { apps; exact H7. }
    { rewrite !zlen_app, zlen_cons, zlen_nil. lia. }
    { rewrite !zlen_app, zlen_cons, zlen_nil. lia. }
    { rewrite !zlen_app, zlen_cons, zlen_nil. lia. }
    exists d3, (S2 ++ p :: L3). split; [exact H10|].
    split; [apps; apps_in H11; exact H11|].
    split; [rewrite H3; apply Permutation_app; auto|].
    intros [Hanti Htr]. specialize (H9 (conj Hanti Htr)). specialize (H13 (conj Hanti Htr)).
    assert (HF1 : Forall (fun a => cmp a p <= 0) S2).
    { eapply Permutation_Forall; [exact H8|]. eapply Forall_impl; [|exact H4]. intros; cbn in *; lia. }
    assert (HF2 : Forall (fun a => cmp p a <= 0) L3).
    { eapply Permutation_Forall; [exact H12|]. eapply Forall_impl; [|exact H5].
      intros a Ha. cbn in *. specialize (Hanti a p). lia. }
    clear -H9 H13 HF1 HF2 Htr.
    induction S2 as [|a S2 IHS]; cbn [app].
    + constructor; auto.
    + apply Forall_cons_iff in HF1 as [Ha HF1]. inversion H9; subst.
      constructor; [apply IHS; auto|]. apply Forall_app; split; auto.
      constructor; auto. eapply Forall_impl; [|exact HF2]. intros b Hb. cbn in *.
      apply (Htr a p b); auto.
  - exists d, s. split; [reflexivity|]. split; [exact HR|]. split; [reflexivity|].
    intros _. assert (Hs1 : zlen s <= 1) by lia.
    destruct s as [|a [|b s]]; [constructor| |unfold zlen in Hs1; cbn [length] in Hs1; lia].
    constructor; constructor.
Qed.

Lemma StronglySorted_sorted_by l :
  total_preorder cmp -> StronglySorted (fun a b => cmp a b <= 0) l -> sorted_by cmp l.
Proof.
  intros [Hanti _] HS. unfold sorted_by.
  induction HS as [|x l HS IH HF]; intros i j a b Hij Ha Hb.
  - destruct i; discriminate.
  - destruct i as [|i], j as [|j]; cbn in *; try lia.
    + inversion Ha; inversion Hb; subst. specialize (Hanti b b). lia.
    + inversion Ha; subst. rewrite Forall_forall in HF. apply HF. eapply nth_error_In; eauto.
    + apply (IH i j); auto. lia.
Qed.

Theorem da_sort_ok d l esz :
  Rep d l esz ->
  exists d' l', da_sort cmp d = Ok d' /\ Rep d' l' esz /\ Permutation l l' /\
    (total_preorder cmp -> sorted_by cmp l').
Proof.
  intros HR. pose proof (rep_cap32 _ _ _ HR). pose proof (rep_size_le_cap _ _ _ HR).
  pose proof HR as (_ & _ & Hs & _). unfold da_sort. rewrite Hs.
  destruct (qsort_ok esz (S (Z.to_nat (zlen l))) l d [] [] 0 (zlen l - 1))
    as (d' & l' & H1 & H2 & H3 & H4).
  - unfold zlen; lia.
  - cbn [app]. rewrite app_nil_r. exact HR.
  - rewrite zlen_nil. lia.
  - reflexivity.
  - rewrite zlen_nil. lia.
  - cbn [app] in H2. rewrite app_nil_r in H2. exists d', l'. repeat (split; auto).
    intros Ht. apply StronglySorted_sorted_by; auto.
Qed.

End S.
