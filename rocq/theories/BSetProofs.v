From Verif Require Import Base ListLemmas BSet.

Section P.
Context {A : Type}.
Variable cmp : A -> A -> Z.
Hypothesis Hto : total_order cmp.

Fixpoint tin (x : A) (t : tree A) : Prop :=
  match t with Leaf => False | Node l y r => x = y \/ tin x l \/ tin x r end.

Fixpoint bst (t : tree A) : Prop :=
  match t with
  | Leaf => True
  | Node l y r => bst l /\ bst r /\ (forall x, tin x l -> cmp x y < 0) /\
                  (forall x, tin x r -> cmp x y > 0)
  end.

Local Lemma lt_gt a b : cmp a b < 0 <-> cmp b a > 0. Proof. apply Hto. Qed.
Local Lemma lt_trans a b c : cmp a b < 0 -> cmp b c < 0 -> cmp a c < 0. Proof. apply Hto. Qed.
Local Lemma cmp_eq a b : cmp a b = 0 <-> a = b. Proof. apply Hto. Qed.

Lemma tin_foreach x t : tin x t <-> In x (tree_foreach t).
Proof.
  induction t as [|l IHl y r IHr]; cbn; [tauto|]. rewrite in_app_iff, <- IHl, <- IHr.
  intuition congruence.
Qed.

Lemma cmp_irrefl x : ~ cmp x x < 0.
Proof. pose proof (proj2 (cmp_eq x x) eq_refl). lia. Qed.

Lemma insert_in t x z : tin z (fst (tree_insert cmp t x)) <-> z = x \/ tin z t.
Proof.
  induction t as [|l IHl y r IHr]; cbn; [tauto|].
  destruct (cmp x y <? 0) eqn:E1; [|destruct (cmp x y >? 0) eqn:E2].
  - destruct (tree_insert cmp l x) as [l' b]; cbn in *. rewrite IHl. tauto.
  - destruct (tree_insert cmp r x) as [r' b]; cbn in *. rewrite IHr. tauto.
  - assert (x = y) by (apply cmp_eq; lia). subst. cbn. tauto.
Qed.

Lemma insert_bst t x : bst t -> bst (fst (tree_insert cmp t x)).
Proof.
  induction t as [|l IHl y r IHr]; cbn; [tauto|]. intros (H1 & H2 & H3 & H4).
  destruct (cmp x y <? 0) eqn:E1; [|destruct (cmp x y >? 0) eqn:E2].
  - pose proof (insert_in l x) as HI. destruct (tree_insert cmp l x) as [l' b]; cbn in *.
    splits; auto. intros z Hz. apply HI in Hz as [->|Hz]; [lia|auto].
  - pose proof (insert_in r x) as HI. destruct (tree_insert cmp r x) as [r' b]; cbn in *.
    splits; auto. intros z Hz. apply HI in Hz as [->|Hz]; [lia|auto].
  - cbn. splits; auto.
Qed.

Lemma insert_added t x : bst t -> (snd (tree_insert cmp t x) = true <-> ~ tin x t).
Proof.
  induction t as [|l IHl y r IHr]; cbn; [tauto|]. intros (H1 & H2 & H3 & H4).
  destruct (cmp x y <? 0) eqn:E1; [|destruct (cmp x y >? 0) eqn:E2].
  - destruct (tree_insert cmp l x) as [l' b]; cbn in *. rewrite IHl by auto.
    split; [|tauto]. intros Hn [->|[Hl|Hr]]; auto.
    + apply (cmp_irrefl y). lia.
    + apply H4 in Hr. lia.
  - destruct (tree_insert cmp r x) as [r' b]; cbn in *. rewrite IHr by auto.
    split; [|tauto]. intros Hn [->|[Hl|Hr]]; auto.
    + pose proof (proj2 (cmp_eq y y) eq_refl). lia.
    + apply H3 in Hl. lia.
  - cbn. assert (x = y) by (apply cmp_eq; lia). split; [discriminate|tauto].
Qed.

Lemma min_some (l : tree A) y r : exists m, tree_min (Node l y r) = Some m.
Proof.
  revert y r. induction l as [|l IHl z r' IHr]; intros y r; [cbn; eauto|exact (IHl z r')].
Qed.

Lemma min_spec t m : bst t -> tree_min t = Some m ->
  tin m t /\ forall x, tin x t -> x = m \/ cmp m x < 0.
Proof.
  induction t as [|l IHl y r IHr]; [discriminate|]. intros (H1 & H2 & H3 & H4) Hm.
  destruct l as [|l1 z l2].
  - inversion Hm; subst. cbn. split; [auto|]. intros x [->|[[]|Hx]]; auto.
    right. apply lt_gt. auto.
  - change (tree_min (Node l1 z l2) = Some m) in Hm. destruct (IHl H1 Hm) as [Ha Hb].
    split; [right; left; exact Ha|]. intros x [->|[Hx|Hx]].
    + right. apply H3. exact Ha.
    + apply Hb. exact Hx.
    + right. apply (lt_trans m y x); [apply H3; exact Ha|]. apply lt_gt. apply H4. exact Hx.
Qed.

Lemma remove_correct t : forall x, bst t ->
  bst (fst (fst (tree_remove cmp t x))) /\
  (forall z, tin z (fst (fst (tree_remove cmp t x))) <-> z <> x /\ tin z t) /\
  (snd (fst (tree_remove cmp t x)) = true <-> tin x t).
Proof.
  induction t as [|l IHl y r IHr]; intros x HB; cbn [tree_remove].
  - cbn. splits; auto; try tauto. split; [discriminate|tauto].
  - destruct HB as (H1 & H2 & H3 & H4).
    destruct (cmp x y <? 0) eqn:E1; [|destruct (cmp x y >? 0) eqn:E2].
    + specialize (IHl x H1). destruct (tree_remove cmp l x) as [[l' b] g]; cbn [fst snd] in *.
      destruct IHl as (Ha & Hb & Hc).
      assert (Hxy : x <> y) by (intros ->; apply (cmp_irrefl y); lia).
      assert (Hxr : ~ tin x r) by (intro Hr; apply H4 in Hr; lia).
      splits.
      * cbn. splits; auto. intros z Hz. apply Hb in Hz. apply H3; tauto.
      * intro z. cbn. rewrite Hb. split.
        -- intros [->|[[Hz1 Hz2]|Hz]]; splits; auto. intros ->. auto.
        -- tauto.
      * rewrite Hc. cbn. tauto.
    + specialize (IHr x H2). destruct (tree_remove cmp r x) as [[r' b] g]; cbn [fst snd] in *.
      destruct IHr as (Ha & Hb & Hc).
      assert (Hxy : x <> y) by (intros ->; pose proof (proj2 (cmp_eq y y) eq_refl); lia).
      assert (Hxl : ~ tin x l) by (intro Hr; apply H3 in Hr; lia).
      splits.
      * cbn. splits; auto. intros z Hz. apply Hb in Hz. apply H4; tauto.
      * intro z. cbn. rewrite Hb. split.
        -- intros [->|[Hz|[Hz1 Hz2]]]; splits; auto. intros ->. auto.
        -- tauto.
      * rewrite Hc. cbn. tauto.
    + assert (x = y) by (apply cmp_eq; lia). subst x. clear E1 E2.
      assert (Hyl : forall z, tin z l -> z <> y).
      { intros z Hz ->. apply H3 in Hz. apply (cmp_irrefl y). lia. }
      assert (Hyr : forall z, tin z r -> z <> y).
      { intros z Hz ->. apply H4 in Hz. pose proof (proj2 (cmp_eq y y) eq_refl). lia. }
      destruct l as [|l1 lx l2].
      { destruct r as [|r1 rx r2]; cbn [fst snd].
        - splits; cbn; auto; try tauto; try (intro z; intuition congruence).
        - splits; auto.
          + intro z. pose proof (Hyr z). cbn [tin] in *. tauto.
          + cbn; tauto. }
      destruct r as [|r1 rx r2].
      { cbn [fst snd]. splits; auto.
        - intro z. pose proof (Hyl z). cbn [tin] in *. tauto.
        - cbn; tauto. }
      destruct (min_some r1 rx r2) as [m Hm]. rewrite Hm.
      specialize (IHr m H2). destruct (min_spec _ _ H2 Hm) as [Hm1 Hm2].
      destruct (tree_remove cmp (Node r1 rx r2) m) as [[r' b] g]. cbn [fst snd] in *.
      destruct IHr as (Ha & Hb & Hc).
      splits.
      * split; [exact H1|]. split; [exact Ha|]. split.
        -- intros z Hz. apply (lt_trans z y m); [auto|]. apply lt_gt. auto.
        -- intros z Hz. apply Hb in Hz as [Hz1 Hz2]. destruct (Hm2 z Hz2) as [->|Hz3]; [congruence|].
           apply lt_gt. exact Hz3.
      * intro z. change (tin z (Node (Node l1 lx l2) m r')) with
          (z = m \/ tin z (Node l1 lx l2) \/ tin z r').
        change (tin z (Node (Node l1 lx l2) y (Node r1 rx r2))) with
          (z = y \/ tin z (Node l1 lx l2) \/ tin z (Node r1 rx r2)).
        rewrite Hb. split.
        -- intros [->|[Hz|[Hz1 Hz2]]]; split; auto.
        -- intros [Hz [->|[Hz2|Hz2]]]; [congruence|auto|].
           destruct (Hm2 z Hz2) as [->|Hz3]; auto.
           right. right. split; auto. intros ->. apply (cmp_irrefl m); auto.
      * split; [intros _; left; reflexivity|]. intros _. apply Hc. exact Hm1.
Qed.

Lemma find_correct t x : bst t -> (tin x t -> tree_find cmp t x = Some x) /\ (~ tin x t -> tree_find cmp t x = None).
Proof.
  induction t as [|l IHl y r IHr]; cbn; [tauto|]. intros (H1 & H2 & H3 & H4).
  destruct (cmp x y <? 0) eqn:E1; [|destruct (cmp x y >? 0) eqn:E2].
  - assert (x <> y) by (intros ->; apply (cmp_irrefl y); lia).
    assert (~ tin x r) by (intro Hr; apply H4 in Hr; lia). tauto.
  - assert (x <> y) by (intros ->; pose proof (proj2 (cmp_eq y y) eq_refl); lia).
    assert (~ tin x l) by (intro Hr; apply H3 in Hr; lia). tauto.
  - assert (x = y) by (apply cmp_eq; lia). subst. split; auto. tauto.
Qed.

Lemma NoDup_app3 {B} (a b : list B) :
  NoDup a -> NoDup b -> (forall x, In x a -> ~ In x b) -> NoDup (a ++ b).
Proof.
  induction a as [|x a IH]; cbn; auto. intros Ha Hb H. inversion Ha; subst. constructor.
  - rewrite in_app_iff. intros [Hx|Hx]; auto. apply (H x); auto.
  - apply IH; auto.
Qed.

Lemma foreach_nodup t : bst t -> NoDup (tree_foreach t).
Proof.
  induction t as [|l IHl y r IHr]; cbn; intros HB; [constructor|].
  destruct HB as (H1 & H2 & H3 & H4). constructor.
  - rewrite in_app_iff, <- !tin_foreach. intros [H|H].
    + apply H3 in H. apply (cmp_irrefl y); auto.
    + apply H4 in H. pose proof (proj2 (cmp_eq y y) eq_refl). lia.
  - apply NoDup_app3; auto. intros x Hx Hy. rewrite <- tin_foreach in *.
    apply H3 in Hx. apply H4 in Hy. lia.
Qed.

Definition SInv (s : bset A) : Prop :=
  bst (bs_data s) /\ bs_size s = wrap32 (zlen (tree_foreach (bs_data s))).

Lemma perm_same_elems {B} (a b : list B) :
  NoDup a -> NoDup b -> (forall x, In x a <-> In x b) -> zlen a = zlen b.
Proof. intros. unfold zlen. rewrite (Permutation_length (NoDup_Permutation H H0 H1)). reflexivity. Qed.

Lemma tin_dec x t : bst t -> tin x t \/ ~ tin x t.
Proof.
  induction t as [|l IHl y r IHr]; cbn; [tauto|]. intros (H1 & H2 & H3 & H4).
  specialize (IHl H1). specialize (IHr H2).
  destruct (Z.eq_dec (cmp x y) 0) as [E|E]; [apply cmp_eq in E; tauto|].
  assert (x <> y) by (intros ->; apply E; apply cmp_eq; auto). tauto.
Qed.

Lemma insert_inv s x : SInv s -> SInv (bset_insert cmp s x) /\
  forall z, tin z (bs_data (bset_insert cmp s x)) <-> z = x \/ tin z (bs_data s).
Proof.
  intros [HB HS]. unfold bset_insert.
  pose proof (insert_bst (bs_data s) x HB) as H1. pose proof (insert_in (bs_data s) x) as H2.
  pose proof (insert_added (bs_data s) x HB) as H3.
  destruct (tree_insert cmp (bs_data s) x) as [t b]; cbn [fst snd] in *.
  split; [|exact H2]. split; cbn [bs_data bs_size]; auto.
  pose proof (foreach_nodup _ H1) as N1. pose proof (foreach_nodup _ HB) as N2.
  destruct b.
  - assert (Hx : ~ tin x (bs_data s)) by (apply H3; reflexivity).
    rewrite HS. rewrite (perm_same_elems (tree_foreach t) (x :: tree_foreach (bs_data s))).
    + rewrite zlen_cons. unfold wrap32. rewrite Zplus_mod_idemp_l. reflexivity.
    + exact N1.
    + constructor; auto. rewrite <- tin_foreach. exact Hx.
    + intro z. rewrite <- tin_foreach, H2. cbn. rewrite <- tin_foreach. intuition congruence.
  - assert (Hx : tin x (bs_data s)).
    { destruct (tin_dec x (bs_data s) HB) as [|Hn]; auto. apply H3 in Hn. discriminate. }
    rewrite HS. f_equal. apply perm_same_elems; auto.
    intro z. rewrite <- !tin_foreach, H2. intuition congruence.
Qed.

Lemma remove_inv s x : SInv s -> SInv (fst (bset_remove cmp s x)) /\
  forall z, tin z (bs_data (fst (bset_remove cmp s x))) <-> z <> x /\ tin z (bs_data s).
Proof.
  intros [HB HS]. unfold bset_remove.
  destruct (remove_correct (bs_data s) x HB) as (H1 & H2 & H3).
  destruct (tree_remove cmp (bs_data s) x) as [[t b] g]; cbn [fst snd] in *.
  split; [|exact H2]. split; cbn [bs_data bs_size]; auto.
  pose proof (foreach_nodup _ H1) as N1. pose proof (foreach_nodup _ HB) as N2.
  destruct b.
  - assert (Hx : tin x (bs_data s)) by (apply H3; reflexivity).
    rewrite HS. rewrite (perm_same_elems (tree_foreach (bs_data s)) (x :: tree_foreach t)).
    + rewrite zlen_cons. unfold wrap32. rewrite Zminus_mod_idemp_l. f_equal. lia.
    + exact N2.
    + constructor; auto. rewrite <- tin_foreach, H2. tauto.
    + intro z. cbn. rewrite <- !tin_foreach, H2.
      destruct (Z.eq_dec (cmp z x) 0) as [E|E].
      * apply cmp_eq in E. subst; tauto.
      * assert (z <> x) by (intros ->; apply E; apply cmp_eq; auto). intuition congruence.
  - assert (Hx : ~ tin x (bs_data s)).
    { intro Hn. apply H3 in Hn. discriminate. }
    rewrite HS. f_equal. apply perm_same_elems; auto.
    intro z. rewrite <- !tin_foreach, H2. split; [|tauto]. intro Hz. split; auto. intros ->; auto.
Qed.

Lemma run_inv ops : forall s, SInv s ->
  SInv (bset_run cmp s ops) /\
  forall z (P : Prop), (tin z (bs_data s) <-> P) -> (tin z (bs_data (bset_run cmp s ops)) <-> member_from P ops z).
Proof.
  induction ops as [|o ops IH]; intros s HS; cbn [bset_run fold_left member_from].
  - split; auto.
  - destruct o as [y|y]; cbn [bset_step].
    + destruct (insert_inv s y HS) as [H1 H2]. destruct (IH _ H1) as [H3 H4].
      split; [exact H3|]. intros z P HP. apply H4. rewrite H2, HP. tauto.
    + destruct (remove_inv s y HS) as [H1 H2]. destruct (IH _ H1) as [H3 H4].
      split; [exact H3|]. intros z P HP. apply H4. rewrite H2, HP. tauto.
Qed.

Theorem bset_is_set ops :
  let s := bset_run cmp bset_new ops in
  (forall x, member ops x -> bset_find cmp s x = Some x) /\
  (forall x, ~ member ops x -> bset_find cmp s x = None) /\
  NoDup (bset_foreach s) /\ (forall x, In x (bset_foreach s) <-> member ops x) /\
  bs_size s = wrap32 (zlen (bset_foreach s)).
Proof.
  intro s. assert (H0 : SInv bset_new) by (split; cbn; auto).
  destruct (run_inv ops bset_new H0) as [H1 H2]. fold s in H1, H2.
  assert (HM : forall x, tin x (bs_data s) <-> member ops x).
  { intro x. apply (H2 x False). cbn. tauto. }
  splits.
  - intros x Hx. apply find_correct; [apply H1|]. apply HM; auto.
  - intros x Hx. apply find_correct; [apply H1|]. rewrite HM; auto.
  - apply foreach_nodup. apply H1.
  - intro x. unfold bset_foreach. rewrite <- tin_foreach. apply HM.
  - apply H1.
Qed.
End P.
