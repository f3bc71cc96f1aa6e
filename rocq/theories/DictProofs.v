From Verif Require Import Base ListLemmas Dict PDict DictSpec DictRun.

(** * Association lists *)
Section Assoc.
Context {K V : Type}.
Variable eqb : K -> K -> bool.
Hypothesis Heq : eqb_equiv eqb.
Implicit Types (m : list (K * V)).

Local Lemma eqb_refl a : eqb a a = true. Proof. apply Heq. Qed.
Local Lemma eqb_sym a b : eqb a b = eqb b a. Proof. apply Heq. Qed.
Local Lemma eqb_trans a b c : eqb a b = true -> eqb b c = true -> eqb a c = true.
Proof. apply Heq. Qed.

Lemma eqb_cong a b c : eqb a b = true -> eqb a c = eqb b c.
Proof.
  intro H. destruct (eqb a c) eqn:E1, (eqb b c) eqn:E2; auto.
  - rewrite eqb_sym in H. rewrite (eqb_trans b a c) in E2; auto.
  - rewrite (eqb_trans a b c) in E1; auto.
Qed.

(** No two entries with the same key. *)
Fixpoint NoDupK m : Prop :=
  match m with
  | [] => True
  | e :: t => (forall e', In e' t -> eqb (fst e) (fst e') = false) /\ NoDupK t
  end.

Lemma NoDupK_perm m m' : Permutation m m' -> NoDupK m -> NoDupK m'.
Proof.
  induction 1 as [|x l l' HP IH|x y l|l l' l'' HP1 IH1 HP2 IH2]; intro H; auto.
  - destruct H as [H1 H2]. split; [|auto]. intros e' Hin. apply H1.
    eapply Permutation_in; [symmetry; exact HP|exact Hin].
  - destruct H as [H1 [H2 H3]]. repeat split.
    + intros e' [<-|Hin]; [|auto]. rewrite eqb_sym. apply H1. left; reflexivity.
    + intros e' Hin. apply H1. right; exact Hin.
    + exact H3.
Qed.

Lemma NoDupK_app m1 m2 :
  NoDupK (m1 ++ m2) <->
  NoDupK m1 /\ NoDupK m2 /\ (forall a b, In a m1 -> In b m2 -> eqb (fst a) (fst b) = false).
Proof.
  induction m1 as [|e t IH]; cbn [app NoDupK].
  - repeat split; try tauto. intros a b [].
  - rewrite IH. split.
    + intros (H1 & H2 & H3 & H4). repeat split; auto.
      * intros e' Hin. apply H1. apply in_or_app; auto.
      * intros a b [<-|Ha] Hb; [apply H1; apply in_or_app; auto|auto].
    + intros ((H1 & H2) & H3 & H4). repeat split; auto.
      * intros e' Hin. apply in_app_or in Hin as [Hin|Hin]; [auto|]. apply H4; auto. left; auto.
      * intros a b Ha Hb. apply H4; auto. right; auto.
Qed.

Lemma m_without_in m k e : In e (m_without eqb m k) <-> In e m /\ eqb k (fst e) = false.
Proof. unfold m_without. rewrite filter_In. destruct (eqb k (fst e)); cbn; intuition congruence. Qed.

Lemma NoDupK_filter f m : NoDupK m -> NoDupK (filter f m).
Proof.
  induction m as [|e t IH]; cbn; auto. intros [H1 H2]. destruct (f e); cbn; auto. split; auto.
  intros e' Hin. apply filter_In in Hin. apply H1. tauto.
Qed.

Lemma NoDupK_m_without m k : NoDupK m -> NoDupK (m_without eqb m k).
Proof. apply NoDupK_filter. Qed.

Lemma NoDupK_m_set m k v : NoDupK m -> NoDupK (m_set eqb m k v).
Proof.
  intro H. unfold m_set. apply NoDupK_app. repeat split; cbn; auto.
  - apply NoDupK_m_without; auto.
  - intros ? [].
  - intros a b Ha [<-|[]]. cbn. rewrite eqb_sym. apply m_without_in in Ha. tauto.
Qed.

Lemma m_get_spec m k v :
  NoDupK m -> (m_get eqb m k = Some v <-> exists k', In (k', v) m /\ eqb k k' = true).
Proof.
  unfold m_get. induction m as [|[k0 v0] t IH]; cbn [find NoDupK]; intros HN.
  - split; [discriminate|]. intros (k' & [] & _).
  - destruct HN as [H1 H2]. cbn [fst] in *. destruct (eqb k k0) eqn:E.
    + cbn [snd]. split.
      * intro H; inversion H; subst. exists k0. split; [left; reflexivity|exact E].
      * intros (k' & [Hin|Hin] & Hk).
        -- inversion Hin; subst; reflexivity.
        -- specialize (H1 _ Hin). cbn in H1. rewrite eqb_sym in E.
           rewrite (eqb_trans k0 k k') in H1; [discriminate|exact E|exact Hk].
    + rewrite (IH H2). split.
      * intros (k' & Hin & Hk). exists k'. split; [right; exact Hin|exact Hk].
      * intros (k' & [Hin|Hin] & Hk); [inversion Hin; subst; congruence|].
        exists k'. auto.
Qed.

Lemma m_get_none m k :
  m_get eqb m k = None <-> (forall e, In e m -> eqb k (fst e) = false).
Proof.
  unfold m_get. induction m as [|[k0 v0] t IH]; cbn [find].
  - split; [intros _ e []|reflexivity].
  - cbn [fst]. destruct (eqb k k0) eqn:E.
    + split; [discriminate|]. intros H. specialize (H (k0, v0) (or_introl eq_refl)). cbn in H. congruence.
    + rewrite IH. split.
      * intros H e [<-|Hin]; [exact E|auto].
      * intros H e Hin. apply H. right; exact Hin.
Qed.

Lemma m_get_perm m m' k : NoDupK m -> Permutation m m' -> m_get eqb m k = m_get eqb m' k.
Proof.
  intros HN HP. pose proof (NoDupK_perm _ _ HP HN) as HN'.
  destruct (m_get eqb m k) as [v|] eqn:E.
  - symmetry. apply m_get_spec; auto. apply m_get_spec in E as (k' & Hin & Hk); auto.
    exists k'. split; auto. eapply Permutation_in; eauto.
  - symmetry. apply m_get_none. intros e Hin. rewrite m_get_none in E. apply E.
    eapply Permutation_in; [symmetry; exact HP|exact Hin].
Qed.

Lemma m_get_set_same m k k' v : NoDupK m -> eqb k' k = true -> m_get eqb (m_set eqb m k v) k' = Some v.
Proof.
  intros HN Hk. apply m_get_spec; [apply NoDupK_m_set; auto|]. exists k. split; [|exact Hk].
  unfold m_set. apply in_or_app; right; left; reflexivity.
Qed.

Lemma m_get_without_same m k k' : eqb k k' = true -> m_get eqb (m_without eqb m k) k' = None.
Proof.
  intros Hk. apply m_get_none. intros e Hin. apply m_without_in in Hin as [_ H].
  rewrite <- (eqb_cong k k' (fst e) Hk). exact H.
Qed.

Lemma m_get_without_other m k k' :
  NoDupK m -> eqb k k' = false -> m_get eqb (m_without eqb m k) k' = m_get eqb m k'.
Proof.
  intros HN Hk. destruct (m_get eqb m k') as [v|] eqn:E.
  - apply m_get_spec in E as (k2 & Hin & H2); auto.
    apply m_get_spec; [apply NoDupK_m_without; auto|].
    exists k2. split; auto. apply m_without_in. split; auto. cbn.
    destruct (eqb k k2) eqn:E3; auto. rewrite eqb_sym in H2.
    rewrite (eqb_trans k k2 k') in Hk; congruence.
  - apply m_get_none. intros e Hin. apply m_without_in in Hin as [Hin _].
    rewrite m_get_none in E. auto.
Qed.

Lemma m_get_set_other m k k' v :
  NoDupK m -> eqb k k' = false -> m_get eqb (m_set eqb m k v) k' = m_get eqb m k'.
Proof.
  intros HN Hk. rewrite <- (m_get_without_other m k k' HN Hk).
  assert (HN1 := NoDupK_m_set m k v HN). assert (HN2 := NoDupK_m_without m k HN).
  destruct (m_get eqb (m_without eqb m k) k') as [w|] eqn:E.
  - apply m_get_spec in E as (k2 & Hin & H2); auto. apply m_get_spec; auto.
    exists k2. split; auto. unfold m_set. apply in_or_app; auto.
  - apply m_get_none. rewrite m_get_none in E. intros e Hin. unfold m_set in Hin.
    apply in_app_or in Hin as [Hin|[<-|[]]]; auto. cbn. rewrite eqb_sym. exact Hk.
Qed.

Lemma m_without_id m k : m_get eqb m k = None -> m_without eqb m k = m.
Proof.
  rewrite m_get_none. unfold m_without. induction m as [|e t IH]; cbn; intro H; auto.
  rewrite (H e (or_introl eq_refl)). cbn. f_equal. apply IH. intros e' Hin. apply H. right; auto.
Qed.

(** Removing a present key removes exactly one entry. *)
Lemma m_without_present m k v :
  NoDupK m -> m_get eqb m k = Some v ->
  exists k', eqb k k' = true /\ Permutation m ((k', v) :: m_without eqb m k).
Proof.
  intros HN Hg. apply m_get_spec in Hg as (k' & Hin & Hk); auto.
  exists k'. split; auto.
  apply in_split in Hin as (l1 & l2 & ->).
  transitivity ((k', v) :: l1 ++ l2); [symmetry; apply Permutation_middle|]. constructor.
  apply NoDupK_app in HN as (HN1 & [HN2 HN3] & HN4).
  unfold m_without. rewrite filter_app. cbn [filter fst]. rewrite Hk. cbn [negb].
  assert (F1 : filter (fun e => negb (eqb k (fst e))) l1 = l1).
  { apply (m_without_id l1 k). apply m_get_none. intros e Hin.
    specialize (HN4 e (k', v) Hin (or_introl eq_refl)). cbn in HN4.
    destruct (eqb k (fst e)) eqn:E; auto. rewrite eqb_sym in E.
    rewrite (eqb_trans (fst e) k k') in HN4; congruence. }
  assert (F2 : filter (fun e => negb (eqb k (fst e))) l2 = l2).
  { apply (m_without_id l2 k). apply m_get_none. intros e Hin.
    specialize (HN2 e Hin). cbn in HN2.
    destruct (eqb k (fst e)) eqn:E; auto. rewrite eqb_sym in Hk.
    rewrite (eqb_trans k' k (fst e)) in HN2; congruence. }
  rewrite F1, F2. reflexivity.
Qed.

Lemma m_without_perm m m' k : Permutation m m' -> Permutation (m_without eqb m k) (m_without eqb m' k).
Proof.
  unfold m_without. induction 1 as [|x l l' HP IH|x y l|l l' l'' HP1 IH1 HP2 IH2]; cbn; auto.
  - destruct (negb _); auto.
  - destruct (negb _), (negb _); auto. constructor.
  - etransitivity; eauto.
Qed.

Lemma m_set_perm m m' k v : Permutation m m' -> Permutation (m_set eqb m k v) (m_set eqb m' k v).
Proof. intro H. unfold m_set. apply Permutation_app_tail. apply m_without_perm; auto. Qed.
End Assoc.

(** * Bucket tables *)
Section Buckets.
Context {K V : Type}.
Variables (hashf : K -> Z) (keycmpf : K -> K -> Z) (eqb : K -> K -> bool).
Hypothesis Heq : eqb_equiv eqb.
Hypothesis Hcmp : forall a b, keycmpf a b = 0 <-> eqb a b = true.
Hypothesis Hhash : forall a b, eqb a b = true -> hashf a = hashf b.

Notation find_first := (find_first (V:=V) keycmpf).
Notation del_first := (del_first (V:=V) keycmpf).
Notation pslot := (pslot (V:=V) hashf).
Notation pbucket := (pbucket (V:=V) hashf).
Notation pget := (pget (V:=V) hashf keycmpf).
Notation pset := (pset (V:=V) hashf keycmpf).
Notation premove := (premove (V:=V) hashf keycmpf).

Lemma cmp_eqb a b : (keycmpf a b =? 0) = eqb a b.
Proof.
  destruct (eqb a b) eqn:E; [apply Hcmp in E; lia|].
  destruct (keycmpf a b =? 0) eqn:E2; auto. assert (keycmpf a b = 0) by lia.
  apply Hcmp in H. congruence.
Qed.

Lemma find_first_m_get k l :
  match find_first k l with Some e => Some (snd e) | None => None end = m_get eqb l k.
Proof.
  unfold m_get. induction l as [|e t IH]; cbn; auto. rewrite cmp_eqb. destruct (eqb k (fst e)); auto.
Qed.

Lemma find_first_find k l : find_first k l = find (fun e => eqb k (fst e)) l.
Proof. induction l as [|e t IH]; cbn; auto. rewrite cmp_eqb. destruct (eqb k (fst e)); auto. Qed.

Lemma del_first_without k l : NoDupK eqb l -> del_first k l = m_without eqb l k.
Proof.
  unfold m_without. induction l as [|e t IH]; cbn; auto. intros [H1 H2].
  rewrite cmp_eqb. destruct (eqb k (fst e)) eqn:E; cbn.
  - symmetry. apply (m_without_id eqb t k). apply m_get_none. intros e' Hin.
    specialize (H1 e' Hin). destruct (eqb k (fst e')) eqn:E2; auto.
    destruct Heq as (_ & Hs & Ht). rewrite Hs in E.
    rewrite (Ht (fst e) k (fst e')) in H1; auto.
  - f_equal. auto.
Qed.

Definition PWf (p : pdict K V) : Prop :=
  p <> [] /\ NoDupK eqb (pentries p) /\
  forall i b, nth_error p i = Some b -> Forall (fun e => pslot p (fst e) = i) b.

Lemma pslot_lt p k : p <> [] -> (pslot p k < length p)%nat.
Proof.
  intro Hp. unfold PDict.pslot. destruct p; [congruence|].
  assert (0 < zlen (l :: p)) by (rewrite zlen_cons; pose proof (zlen_nonneg p); lia).
  pose proof (Z.mod_pos_bound (hashf k) (zlen (l :: p)) H). unfold zlen in *. lia.
Qed.

Lemma pslot_hash p k k' : eqb k k' = true -> pslot p k = pslot p k'.
Proof. intro H. unfold PDict.pslot. rewrite (Hhash _ _ H). reflexivity. Qed.

Lemma PWf_new nb : 0 < nb -> PWf (pnew nb).
Proof.
  intro H. unfold PWf, pnew. split.
  - intro E. apply (f_equal (@length _)) in E. rewrite repeat_length in E. cbn in E. lia.
  - assert (HE : pentries (@repeat (list (K*V)) [] (Z.to_nat nb)) = []).
    { unfold pentries. induction (Z.to_nat nb); cbn; auto. }
    rewrite HE. split; [exact I|]. intros i b Hb. apply nth_error_In, repeat_spec in Hb. subst; constructor.
Qed.

Lemma pentries_new nb : pentries (@pnew K V nb) = [].
Proof. unfold pnew, pentries. induction (Z.to_nat nb); cbn; auto. Qed.

Lemma concat_split (p : pdict K V) i b :
  nth_error p i = Some b ->
  pentries p = concat (firstn i p) ++ b ++ concat (skipn (S i) p).
Proof.
  intro H. unfold pentries. rewrite (nth_error_split3 _ _ _ H) at 1.
  rewrite concat_app. cbn [concat]. reflexivity.
Qed.

Lemma concat_upd (p : pdict K V) i b :
  (i < length p)%nat ->
  pentries (upd p i b) = concat (firstn i p) ++ b ++ concat (skipn (S i) p).
Proof.
  intro H. unfold pentries. rewrite upd_firstn_skipn by auto. rewrite concat_app. reflexivity.
Qed.

Lemma pbucket_nth p k : p <> [] -> nth_error p (pslot p k) = Some (pbucket p k).
Proof. intro H. unfold PDict.pbucket. apply nth_error_nth'. apply pslot_lt; auto. Qed.

(** Entries with the key sit in its bucket only. *)
Lemma other_buckets p k e :
  PWf p -> In e (pentries p) -> eqb k (fst e) = true -> In e (pbucket p k).
Proof.
  intros (Hp & HN & HB) Hin Hk. unfold pentries in Hin. apply in_concat in Hin as (b & Hb & He).
  apply In_nth_error in Hb as (i & Hi). pose proof (HB i b Hi) as HF.
  rewrite Forall_forall in HF. specialize (HF e He).
  rewrite <- (pslot_hash p k (fst e) Hk) in HF. subst i.
  rewrite pbucket_nth in Hi by auto. inversion Hi; subst. exact He.
Qed.

Lemma NoDupK_bucket p k : PWf p -> NoDupK eqb (pbucket p k).
Proof.
  intros (Hp & HN & HB). rewrite (concat_split p _ _ (pbucket_nth p k Hp)) in HN.
  apply (NoDupK_app eqb) in HN as (_ & HN & _). apply (NoDupK_app eqb) in HN. tauto.
Qed.

Lemma without_rest p k :
  PWf p ->
  m_without eqb (pentries p) k =
  concat (firstn (pslot p k) p) ++ m_without eqb (pbucket p k) k ++ concat (skipn (S (pslot p k)) p).
Proof.
  intros HW. pose proof HW as (Hp & HN & HB).
  pose proof (concat_split p _ _ (pbucket_nth p k Hp)) as HE.
  assert (Hother : forall e, In e (concat (firstn (pslot p k) p)) \/
                             In e (concat (skipn (S (pslot p k)) p)) -> eqb k (fst e) = false).
  { intros e He. destruct (eqb k (fst e)) eqn:E; auto. exfalso.
    assert (Hin : In e (pentries p)).
    { rewrite HE. apply in_or_app. destruct He; [left; auto|right; apply in_or_app; right; auto]. }
    assert (Hb := other_buckets p k e HW Hin E).
    rewrite HE in HN. apply (NoDupK_app eqb) in HN as (_ & HN & HN3).
    apply (NoDupK_app eqb) in HN as (_ & _ & HN4).
    assert (Hrefl : eqb (fst e) (fst e) = true) by apply Heq.
    destruct He as [He|He].
    - rewrite (HN3 e e He) in Hrefl; [discriminate|]. apply in_or_app; left; auto.
    - rewrite (HN4 e e Hb He) in Hrefl. discriminate. }
  rewrite HE. unfold m_without. rewrite !filter_app. f_equal; [|f_equal].
  - apply (m_without_id eqb). apply m_get_none. auto.
  - apply (m_without_id eqb). apply m_get_none. auto.
Qed.

Lemma pget_m_get p k : PWf p -> pget p k = m_get eqb (pentries p) k.
Proof.
  intros HW. unfold PDict.pget. rewrite find_first_m_get.
  pose proof (NoDupK_bucket p k HW) as HNb. pose proof HW as (Hp & HN & HB).
  destruct (m_get eqb (pbucket p k) k) as [v|] eqn:E; symmetry.
  - apply (m_get_spec eqb) in E as (k' & Hin & Hk); auto. apply (m_get_spec eqb); auto.
    exists k'. split; auto. rewrite (concat_split p _ _ (pbucket_nth p k Hp)).
    apply in_or_app; right; apply in_or_app; left; auto.
  - rewrite m_get_none in *. intros e Hin. destruct (eqb k (fst e)) eqn:E2; auto.
    rewrite (E e) in E2; [discriminate|]. apply other_buckets; auto.
Qed.

Lemma PWf_upd p i b :
  (i < length p)%nat -> PWf p -> NoDupK eqb (pentries (upd p i b)) ->
  Forall (fun e => pslot p (fst e) = i) b -> PWf (upd p i b).
Proof.
  intros Hi (Hp & HN & HB) HN' HF. split; [|split; auto].
  - intro E. apply (f_equal (@length _)) in E. rewrite upd_length in E. cbn in E. lia.
  - intros j b' Hj.
    assert (HS : forall e : K * V, pslot (upd p i b) (fst e) = pslot p (fst e)).
    { intro e. unfold PDict.pslot, zlen. rewrite upd_length. reflexivity. }
    destruct (Nat.eq_dec i j) as [->|Hne].
    + rewrite nth_error_upd_same in Hj by auto. inversion Hj; subst b'.
      eapply Forall_impl; [|exact HF]. intros e He. cbn in *. rewrite HS. exact He.
    + rewrite nth_error_upd_other in Hj by auto. specialize (HB j b' Hj).
      eapply Forall_impl; [|exact HB]. intros e He. cbn in *. rewrite HS. exact He.
Qed.

Lemma bucket_forall p k : PWf p -> Forall (fun e => pslot p (fst e) = pslot p k) (pbucket p k).
Proof. intros (Hp & HN & HB). apply HB. apply pbucket_nth; auto. Qed.

Lemma premove_ok p k :
  PWf p -> PWf (premove p k) /\ pentries (premove p k) = m_without eqb (pentries p) k.
Proof.
  intros HW. pose proof HW as (Hp & HN & HB).
  assert (HE : pentries (premove p k) = m_without eqb (pentries p) k).
  { unfold PDict.premove. rewrite concat_upd by (apply pslot_lt; auto).
    rewrite del_first_without by (apply NoDupK_bucket; auto). symmetry. apply without_rest; auto. }
  split; [|exact HE]. unfold PDict.premove. apply PWf_upd; auto.
  - apply pslot_lt; auto.
  - unfold PDict.premove in HE. rewrite HE. apply NoDupK_m_without; auto.
  - rewrite del_first_without by (apply NoDupK_bucket; auto).
    apply Forall_forall. intros e Hin. apply m_without_in in Hin as [Hin _].
    pose proof (bucket_forall p k HW) as HF. rewrite Forall_forall in HF. auto.
Qed.

Lemma pset_ok p k v :
  PWf p -> PWf (pset p k v) /\ Permutation (pentries (pset p k v)) (m_set eqb (pentries p) k v).
Proof.
  intros HW. pose proof HW as (Hp & HN & HB).
  assert (HE : Permutation (pentries (pset p k v)) (m_set eqb (pentries p) k v)).
  { unfold PDict.pset. rewrite concat_upd by (apply pslot_lt; auto).
    rewrite del_first_without by (apply NoDupK_bucket; auto).
    unfold m_set. rewrite without_rest by auto. rewrite <- !app_assoc.
    do 2 apply Permutation_app_head. apply Permutation_app_comm. }
  split; [|exact HE]. unfold PDict.pset. apply PWf_upd; auto.
  - apply pslot_lt; auto.
  - unfold PDict.pset in HE. eapply NoDupK_perm; [exact Heq|symmetry; exact HE|].
    apply NoDupK_m_set; auto.
  - apply Forall_app. split.
    + rewrite del_first_without by (apply NoDupK_bucket; auto).
      apply Forall_forall. intros e Hin. apply m_without_in in Hin as [Hin _].
      pose proof (bucket_forall p k HW) as HF. rewrite Forall_forall in HF. auto.
    + constructor; [reflexivity|constructor].
Qed.

(** Interface used by the layers above. *)
Lemma pget_new nb k : 0 < nb -> pget (pnew nb) k = None.
Proof. intro H. rewrite pget_m_get by (apply PWf_new; auto). rewrite pentries_new. reflexivity. Qed.
Lemma pget_pset_same p k k' v : PWf p -> eqb k' k = true -> pget (pset p k v) k' = Some v.
Proof.
  intros HW Hk. destruct (pset_ok p k v HW) as [HW' HP]. pose proof HW as (_ & HN & _).
  pose proof HW' as (_ & HN' & _).
  rewrite pget_m_get by auto. rewrite (m_get_perm eqb Heq _ _ k' HN' HP).
  apply m_get_set_same; auto.
Qed.
Lemma pget_pset_other p k k' v : PWf p -> eqb k k' = false -> pget (pset p k v) k' = pget p k'.
Proof.
  intros HW Hk. destruct (pset_ok p k v HW) as [HW' HP]. pose proof HW as (_ & HN & _).
  pose proof HW' as (_ & HN' & _).
  rewrite !pget_m_get by auto. rewrite (m_get_perm eqb Heq _ _ k' HN' HP).
  apply m_get_set_other; auto.
Qed.
Lemma pget_premove_same p k k' : PWf p -> eqb k k' = true -> pget (premove p k) k' = None.
Proof.
  intros HW Hk. destruct (premove_ok p k HW) as [HW' HE].
  rewrite pget_m_get, HE by auto. apply m_get_without_same; auto.
Qed.
Lemma pget_premove_other p k k' : PWf p -> eqb k k' = false -> pget (premove p k) k' = pget p k'.
Proof.
  intros HW Hk. destruct (premove_ok p k HW) as [HW' HE]. pose proof HW as (_ & HN & _).
  rewrite !pget_m_get, HE by auto. apply m_get_without_other; auto.
Qed.
Lemma pget_in p k v : PWf p -> (pget p k = Some v <-> exists k', In (k', v) (pentries p) /\ eqb k k' = true).
Proof. intros HW. rewrite pget_m_get by auto. apply m_get_spec; auto. apply HW. Qed.

(** In-place modification. *)
Notation pmodify := (pmodify (V:=V) hashf keycmpf).
Definition m_modify (m : list (K * V)) (k : K) (f : V -> V) : list (K * V) :=
  map (fun e => if eqb k (fst e) then (fst e, f (snd e)) else e) m.

Lemma m_modify_keys m k f : map fst (m_modify m k f) = map fst m.
Proof.
  unfold m_modify. rewrite map_map. apply map_ext. intros [a b]; cbn. destruct (eqb k a); reflexivity.
Qed.

Lemma NoDupK_keys (m m' : list (K * V)) : map fst m = map fst m' -> NoDupK eqb m -> NoDupK eqb m'.
Proof.
  revert m'; induction m as [|e t IH]; intros [|e' t'] HE HN; try discriminate; auto.
  cbn in HE. inversion HE as [[H1 H2]]. destruct HN as [HN1 HN2]. split; [|eapply IH; eauto].
  intros e'' Hin. apply (in_map fst) in Hin. rewrite <- H2 in Hin. apply in_map_iff in Hin as (x & Hx & Hin).
  specialize (HN1 x Hin). rewrite <- H1, <- Hx. exact HN1.
Qed.

Lemma m_get_modify m k k' f :
  m_get eqb (m_modify m k f) k' =
  if eqb k k' then option_map f (m_get eqb m k') else m_get eqb m k'.
Proof.
  unfold m_get, m_modify. induction m as [|[a b] t IH]; cbn [map find fst snd].
  - destruct (eqb k k'); reflexivity.
  - assert (HA : eqb k' (fst (if eqb k a then (a, f b) else (a, b))) = eqb k' a)
      by (destruct (eqb k a); reflexivity).
    rewrite HA. destruct (eqb k' a) eqn:E; [|exact IH].
    destruct Heq as (_ & Hs & Ht). destruct (eqb k k') eqn:E2.
    + rewrite (Ht k k' a E2 E). reflexivity.
    + destruct (eqb k a) eqn:E3; [|reflexivity].
      rewrite Hs in E. rewrite (Ht k a k' E3 E) in E2. discriminate.
Qed.

Lemma pmodify_ok p k f :
  PWf p -> PWf (pmodify p k f) /\ pentries (pmodify p k f) = m_modify (pentries p) k f.
Proof.
  intros HW. pose proof HW as (Hp & HN & HB).
  assert (HE : pentries (pmodify p k f) = m_modify (pentries p) k f).
  { unfold PDict.pmodify. rewrite concat_upd by (apply pslot_lt; auto).
    rewrite (concat_split p _ _ (pbucket_nth p k Hp)). unfold m_modify. rewrite !map_app.
    assert (Hid : forall l, (forall e, In e l -> eqb k (fst e) = false) ->
       map (fun e : K * V => if eqb k (fst e) then (fst e, f (snd e)) else e) l = l).
    { intros l Hl. rewrite <- (map_id l) at 2. apply map_ext_in. intros e He. rewrite (Hl e He). reflexivity. }
    assert (Hother : forall e, In e (concat (firstn (pslot p k) p)) \/
                             In e (concat (skipn (S (pslot p k)) p)) -> eqb k (fst e) = false).
    { intros e He. destruct (eqb k (fst e)) eqn:E; auto. exfalso.
      pose proof (concat_split p _ _ (pbucket_nth p k Hp)) as HE0.
      assert (Hin : In e (pentries p)).
      { rewrite HE0. apply in_or_app. destruct He; [left; auto|right; apply in_or_app; right; auto]. }
      assert (Hb := other_buckets p k e HW Hin E).
      rewrite HE0 in HN. apply (NoDupK_app eqb) in HN as (_ & HN & HN3).
      apply (NoDupK_app eqb) in HN as (_ & _ & HN4).
      assert (Hrefl : eqb (fst e) (fst e) = true) by apply Heq.
      destruct He as [He|He].
      - rewrite (HN3 e e He) in Hrefl; [discriminate|]. apply in_or_app; left; auto.
      - rewrite (HN4 e e Hb He) in Hrefl. discriminate. }
    rewrite (Hid (concat (firstn _ _))), (Hid (concat (skipn _ _))) by auto.
    f_equal. f_equal. apply map_ext. intro e. rewrite cmp_eqb. reflexivity. }
  split; [|exact HE]. unfold PDict.pmodify. apply PWf_upd; auto.
  - apply pslot_lt; auto.
  - unfold PDict.pmodify in HE. rewrite HE.
    eapply NoDupK_keys; [symmetry; apply m_modify_keys|exact HN].
  - pose proof (bucket_forall p k HW) as HF. rewrite Forall_forall in *. intros e He.
    apply in_map_iff in He as (e0 & He0 & Hin). specialize (HF e0 Hin).
    destruct (keycmpf k (fst e0) =? 0); subst e; exact HF.
Qed.

Lemma pget_pmodify p k k' f :
  PWf p -> pget (pmodify p k f) k' = if eqb k k' then option_map f (pget p k') else pget p k'.
Proof.
  intros HW. destruct (pmodify_ok p k f HW) as [HW' HE].
  rewrite !pget_m_get, HE by auto. apply m_get_modify.
Qed.

(** * The model with NULL buckets, modulo by num_buckets and a 32-bit size *)
Definition ob (b : option (list (K * V))) : list (K * V) := match b with None => [] | Some l => l end.
Definition pb (d : dict K V) : pdict K V := map ob (buckets d).

Definition Wf (d : dict K V) : Prop :=
  0 < num_buckets d /\ zlen (buckets d) = num_buckets d /\
  dsize d = wrap32 (zlen (dict_entries d)) /\ PWf (pb d).

Lemma entries_pb d : dict_entries d = pentries (pb d).
Proof. unfold dict_entries, pentries, pb. f_equal. Qed.

Lemma Wf_new nb : 0 < nb -> Wf (dict_new nb).
Proof.
  intro H. unfold Wf, dict_new; cbn [num_buckets buckets dsize].
  assert (HP : pb (dict_new nb) = pnew nb).
  { unfold pb, dict_new, pnew; cbn [buckets]. induction (Z.to_nat nb); cbn; f_equal; auto. }
  unfold dict_new in HP. repeat split; auto.
  - unfold zlen. rewrite repeat_length. lia.
  - rewrite entries_pb, HP, pentries_new. reflexivity.
  - rewrite HP. apply PWf_new; auto.
  - rewrite HP. apply PWf_new; auto.
  - rewrite HP. apply PWf_new; auto.
Qed.

Lemma bucket_of_ok d k :
  Wf d -> exists b, bucket_of hashf d k = Ok (pslot (pb d) k, b) /\ ob b = pbucket (pb d) k /\
                    nth_error (buckets d) (pslot (pb d) k) = Some b.
Proof.
  intros (Hn & HL & Hs & HW). unfold bucket_of. destruct (num_buckets d =? 0) eqn:E; [lia|].
  assert (Hslot : Z.to_nat (hashf k mod num_buckets d) = pslot (pb d) k).
  { unfold PDict.pslot, pb. rewrite zlen_map, HL. reflexivity. }
  rewrite Hslot. pose proof (pbucket_nth (pb d) k (proj1 HW)) as HB.
  unfold pb in HB at 1. rewrite nth_error_map in HB.
  destruct (nth_error (buckets d) (pslot (pb d) k)) as [b|] eqn:E2; [|discriminate].
  exists b. cbn in HB. inversion HB. auto.
Qed.

Lemma chain_find_first k l i :
  match chain_find keycmpf k l i with
  | Some (j, e) => find_first k l = Some e /\ (i <= j)%nat /\ del l (j - i) = del_first k l
  | None => find_first k l = None /\ del_first k l = l
  end.
Proof.
  revert i; induction l as [|e t IH]; intros i; cbn; auto.
  destruct (keycmpf k (fst e) =? 0).
  - split; auto. split; auto. rewrite Nat.sub_diag. reflexivity.
  - specialize (IH (S i)). destruct (chain_find keycmpf k t (S i)) as [[j e']|].
    + destruct IH as (H1 & H2 & H3). split; auto. split; [lia|].
      replace (j - i)%nat with (S (j - S i))%nat by lia. cbn. f_equal. exact H3.
    + destruct IH as [H1 H2]. split; auto. f_equal; auto.
Qed.

Lemma dict_get_ok d k : Wf d -> dict_get hashf keycmpf d k = Ok (pget (pb d) k).
Proof.
  intros HW. destruct (bucket_of_ok d k HW) as (b & Hb & Hob & _).
  unfold dict_get. rewrite Hb. cbn [bind]. unfold PDict.pget. rewrite <- Hob.
  destruct b as [l|]; cbn [ob]; [|reflexivity].
  pose proof (chain_find_first k l 0) as HC. destruct (chain_find keycmpf k l 0) as [[j e]|].
  - destruct HC as (-> & _). reflexivity.
  - destruct HC as [-> _]. reflexivity.
Qed.

Lemma pb_upd d h b x y : pb (mkDict x (upd (buckets d) h b) y) = upd (pb d) h (ob b).
Proof. unfold pb; cbn [buckets]. symmetry. apply upd_map. Qed.

Lemma find_first_m p k e :
  PWf p -> find_first k (pbucket p k) = Some e -> m_get eqb (pentries p) k = Some (snd e) /\ eqb k (fst e) = true /\
    Permutation (pentries p) (e :: m_without eqb (pentries p) k).
Proof.
  intros HW Hf. rewrite <- pget_m_get by auto. unfold PDict.pget. rewrite Hf.
  split; [reflexivity|]. rewrite find_first_find in Hf. apply find_some in Hf as [Hin Hk]. split; auto.
  rewrite without_rest by auto. rewrite (concat_split p _ _ (pbucket_nth p k (proj1 HW))) at 1.
  pose proof (NoDupK_bucket p k HW) as HNb.
  assert (Hg : m_get eqb (pbucket p k) k = Some (snd e)).
  { apply m_get_spec; auto. exists (fst e). destruct e; auto. }
  destruct (m_without_present eqb Heq _ k (snd e) HNb Hg) as (k' & Hk' & HP).
  assert (k' = fst e) as ->.
  { assert (In (k', snd e) (pbucket p k)) by (eapply Permutation_in; [symmetry; exact HP|left; auto]).
    clear -H Hin Hk Hk' HNb Heq. destruct e as [ke ve]; cbn in *.
    induction (pbucket p k) as [|x t IH]; [destruct H|]. destruct HNb as [H1 H2].
    destruct Heq as (_ & Hs & Ht).
    assert (eqb k' ke = true) by (apply (Ht k' k ke); auto; rewrite Hs; auto).
    destruct H as [->|H], Hin as [E|Hin].
    - congruence.
    - specialize (H1 _ Hin). cbn in H1. congruence.
    - subst x. specialize (H1 _ H). cbn in H1. rewrite Hs in H1. congruence.
    - auto. }
  destruct e as [ke ve]; cbn [fst snd] in *. rewrite HP at 1. cbn [app].
  rewrite <- Permutation_middle. reflexivity.
Qed.

Lemma zlen_perm {B} (a b : list B) : Permutation a b -> zlen a = zlen b.
Proof. intro H. unfold zlen. rewrite (Permutation_length H). reflexivity. Qed.

Lemma find_first_none_m p k :
  PWf p -> find_first k (pbucket p k) = None -> m_get eqb (pentries p) k = None.
Proof. intros HW Hf. rewrite <- pget_m_get by auto. unfold PDict.pget. rewrite Hf. reflexivity. Qed.

Lemma dict_set_ok d k v :
  Wf d -> exists d' g, dict_set hashf keycmpf d k v = Ok (d', g) /\ Wf d' /\
    pb d' = pset (pb d) k v /\
    Permutation ((k, v) :: dict_entries d) (g ++ dict_entries d').
Proof.
  intros HW. destruct (bucket_of_ok d k HW) as (b & Hb & Hob & Hnth).
  pose proof HW as (Hn & HL & Hs & HP).
  destruct (pset_ok (pb d) k v HP) as [HP' HE].
  unfold dict_set. rewrite Hb. cbn [bind].
  assert (Hlt : (pslot (pb d) k < length (buckets d))%nat).
  { apply nth_error_Some. congruence. }
  assert (Hfin : forall sz g h x, pb (mkDict (num_buckets d) (upd (buckets d) h x) sz) = pset (pb d) k v ->
     Permutation ((k, v) :: pentries (pb d)) (g ++ m_set eqb (pentries (pb d)) k v) ->
     sz = wrap32 (zlen (m_set eqb (pentries (pb d)) k v)) ->
     exists d' g', Ok (mkDict (num_buckets d) (upd (buckets d) h x) sz, g) = Ok (d', g') /\ Wf d' /\
       pb d' = pset (pb d) k v /\ Permutation ((k, v) :: dict_entries d) (g' ++ dict_entries d')).
  { intros sz g h x Hpb HPm Hsz. do 2 eexists. split; [reflexivity|].
    rewrite !entries_pb, Hpb. split; [|split; auto].
    - unfold Wf. cbn [num_buckets buckets dsize]. split; auto. split.
      { unfold zlen. rewrite upd_length. exact HL. }
      split; [|rewrite Hpb; exact HP'].
      rewrite entries_pb, Hpb. rewrite Hsz. f_equal. apply zlen_perm. symmetry; exact HE.
    - rewrite HPm. apply Permutation_app_head. symmetry; exact HE. }
  destruct b as [l|]; cbn [ob] in Hob.
  - pose proof (chain_find_first k l 0) as HC. destruct (chain_find keycmpf k l 0) as [[j e]|].
    + destruct HC as (HC1 & _ & HC3). rewrite Nat.sub_0_r in HC3.
      rewrite Hob in HC1. destruct (find_first_m _ _ _ HP HC1) as (Hg & Hk & HPe).
      apply Hfin.
      * rewrite pb_upd. cbn [ob]. rewrite HC3, Hob. reflexivity.
      * unfold m_set. cbn [app].
        transitivity ((k, v) :: e :: m_without eqb (pentries (pb d)) k); [constructor; exact HPe|].
        etransitivity; [apply perm_swap|]. constructor. apply Permutation_cons_append.
      * rewrite Hs. rewrite entries_pb, (zlen_perm _ _ HPe). unfold m_set.
        rewrite zlen_app, !zlen_cons, zlen_nil. unfold wrap32. rewrite Zplus_mod_idemp_l.
        set (n := zlen (m_without eqb (pentries (pb d)) k)).
        replace ((n + 1) mod 2 ^ 32 - 1 + 1) with ((n + 1) mod 2 ^ 32) by lia.
        rewrite Z.mod_mod by lia. f_equal. 
    + destruct HC as (HC1 & HC3). rewrite Hob in HC1.
      pose proof (find_first_none_m _ _ HP HC1) as Hg.
      apply Hfin.
      * rewrite pb_upd. cbn [ob]. unfold PDict.pset. rewrite <- Hob, HC3. reflexivity.
      * unfold m_set. rewrite m_without_id by auto. cbn [app]. apply Permutation_cons_append.
      * rewrite Hs, entries_pb. unfold m_set. rewrite m_without_id by auto.
        rewrite zlen_app, zlen_cons, zlen_nil. unfold wrap32. rewrite Zplus_mod_idemp_l. f_equal; lia.
  - assert (HC1 : find_first k (pbucket (pb d) k) = None) by (rewrite <- Hob; reflexivity).
    pose proof (find_first_none_m _ _ HP HC1) as Hg.
    apply Hfin.
    + rewrite pb_upd. cbn [ob]. unfold PDict.pset. rewrite <- Hob. reflexivity.
    + unfold m_set. rewrite m_without_id by auto. cbn [app]. apply Permutation_cons_append.
    + rewrite Hs, entries_pb. unfold m_set. rewrite m_without_id by auto.
      rewrite zlen_app, zlen_cons, zlen_nil. unfold wrap32. rewrite Zplus_mod_idemp_l. f_equal; lia.
Qed.

Lemma upd_same {B} (l : list B) n x : nth_error l n = Some x -> upd l n x = l.
Proof.
  revert n; induction l as [|h t IH]; intros [|n] H; cbn in *; try congruence. f_equal; auto.
Qed.

Lemma dict_remove_ok d k :
  Wf d -> exists d' g, dict_remove hashf keycmpf d k =
      Ok (d', match m_get eqb (dict_entries d) k with Some _ => true | None => false end, g) /\
    Wf d' /\ pb d' = premove (pb d) k /\ Permutation (dict_entries d) (g ++ dict_entries d').
Proof.
  intros HW. destruct (bucket_of_ok d k HW) as (b & Hb & Hob & Hnth).
  pose proof HW as (Hn & HL & Hs & HP).
  destruct (premove_ok (pb d) k HP) as [HP' HE].
  unfold dict_remove. rewrite Hb. cbn [bind].
  rewrite entries_pb.
  assert (Hnone : find_first k (pbucket (pb d) k) = None ->
    exists d' g, Ok (d, false, []) = Ok (d', match m_get eqb (pentries (pb d)) k with Some _ => true | None => false end, g) /\
    Wf d' /\ pb d' = premove (pb d) k /\ Permutation (pentries (pb d)) (g ++ dict_entries d')).
  { intro HC. exists d, []. rewrite (find_first_none_m _ _ HP HC). split; [reflexivity|].
    split; auto. split; [|rewrite entries_pb; reflexivity].
    unfold PDict.premove. symmetry. rewrite upd_same; auto.
    rewrite pbucket_nth by apply HP. f_equal.
    clear -HC. induction (pbucket (pb d) k) as [|e t IH]; cbn in *; auto.
    destruct (keycmpf k (fst e) =? 0); [discriminate|]. f_equal; auto. }
  destruct b as [l|]; cbn [ob] in Hob; [|apply Hnone; rewrite <- Hob; reflexivity].
  pose proof (chain_find_first k l 0) as HC. destruct (chain_find keycmpf k l 0) as [[j e]|].
  2:{ apply Hnone. rewrite <- Hob. apply HC. }
  destruct HC as (HC1 & _ & HC3). rewrite Nat.sub_0_r in HC3.
  rewrite Hob in HC1. destruct (find_first_m _ _ _ HP HC1) as (Hg & Hk & HPe).
  rewrite Hg. do 2 eexists. split; [reflexivity|].
  assert (Hpb : forall sz, pb (mkDict (num_buckets d) (upd (buckets d) (pslot (pb d) k)
     (match del l j with [] => None | _ => Some (del l j) end)) sz) = premove (pb d) k).
  { intro sz. rewrite pb_upd. unfold PDict.premove. f_equal. rewrite <- Hob, <- HC3.
    destruct (del l j); reflexivity. }
  rewrite !entries_pb, Hpb, HE. split; [|split; auto].
  unfold Wf. cbn [num_buckets buckets dsize]. split; auto. split.
  { unfold zlen. rewrite upd_length. exact HL. }
  split; [|rewrite Hpb; exact HP'].
  rewrite entries_pb, Hpb, HE, Hs, entries_pb, (zlen_perm _ _ HPe), zlen_cons.
  unfold wrap32. rewrite Zminus_mod_idemp_l. f_equal. lia.
Qed.

(** * Histories *)
Lemma dict_run_ok ops : forall d m,
  Wf d -> Permutation (dict_entries d) m ->
  exists d' outs g, dict_run hashf keycmpf d ops = Ok (d', outs, g) /\ Wf d' /\
    Permutation (dict_entries d') (fst (m_run eqb m ops)) /\
    Forall2 out_agrees outs (snd (m_run eqb m ops)) /\
    Permutation (written ops ++ dict_entries d) (g ++ dict_entries d').
Proof.
  induction ops as [|o ops IH]; intros d m HW HPm; cbn [dict_run m_run].
  - exists d, [], []. splits; auto; constructor.
  - pose proof HW as (Hn & HL & Hs & HP).
    assert (HN : NoDupK eqb (dict_entries d)) by (rewrite entries_pb; apply HP).
    assert (Hget : forall k, pget (pb d) k = m_get eqb m k).
    { intro k. rewrite pget_m_get, <- entries_pb by auto. apply m_get_perm; auto. }
    assert (Hstep : exists d1 x g, dict_step hashf keycmpf d o = Ok (d1, x, g) /\ Wf d1 /\
        Permutation (dict_entries d1) (fst (m_step eqb m o)) /\
        out_agrees x (snd (m_step eqb m o)) /\
        Permutation (written [o] ++ dict_entries d) (g ++ dict_entries d1)).
    { destruct o as [k v|k|k|k| |]; cbn [dict_step m_step fst snd written app].
      - destruct (dict_set_ok d k v HW) as (d' & g & H1 & H2 & H3 & H4). rewrite H1. cbn [bind].
        exists d', MUnit, g. splits; auto; try reflexivity.
        rewrite entries_pb, H3. destruct (pset_ok (pb d) k v HP) as [_ HE]. rewrite HE.
        rewrite <- entries_pb. apply m_set_perm; auto.
      - rewrite dict_get_ok by auto. cbn [bind]. exists d, (MVal (pget (pb d) k)), [].
        splits; auto; try reflexivity. cbn. rewrite Hget. reflexivity.
      - rewrite dict_get_ok by auto. cbn [bind]. do 3 eexists. split; [reflexivity|].
        splits; auto; try reflexivity. cbn. rewrite Hget. reflexivity.
      - destruct (dict_remove_ok d k HW) as (d' & g & H1 & H2 & H3 & H4). rewrite H1. cbn [bind].
        do 3 eexists. split; [reflexivity|]. split; [exact H2|]. split; [|split; [|exact H4]].
        + rewrite entries_pb, H3. destruct (premove_ok (pb d) k HP) as [_ HE]. rewrite HE.
          rewrite <- entries_pb. apply m_without_perm; auto.
        + cbn. rewrite (m_get_perm eqb Heq _ _ k HN HPm). reflexivity.
      - do 3 eexists. split; [reflexivity|]. splits; auto; try reflexivity. cbn.
        rewrite Hs. unfold wrap32. rewrite (zlen_perm _ _ HPm). reflexivity.
      - do 3 eexists. split; [reflexivity|]. splits; auto; try reflexivity. }
    destruct Hstep as (d1 & x & g & H1 & H2 & H3 & H4 & H5). rewrite H1. cbn [bind].
    destruct (m_step eqb m o) as [m1 y]. cbn [fst snd] in *.
    destruct (IH d1 m1 H2 H3) as (d2 & outs & gs & G1 & G2 & G3 & G4 & G5). rewrite G1. cbn [bind].
    destruct (m_run eqb m1 ops) as [m2 ys]. cbn [fst snd] in *.
    exists d2, (x :: outs), (g ++ gs). split; [reflexivity|]. split; [auto|]. split; [auto|].
    split; [constructor; auto|].
    assert (HW2 : written (o :: ops) = written [o] ++ written ops) by (destruct o; reflexivity).
    rewrite HW2. rewrite <- !app_assoc. rewrite <- G5.
    transitivity (written ops ++ written [o] ++ dict_entries d).
    { rewrite !app_assoc. apply Permutation_app_tail. apply Permutation_app_comm. }
    rewrite H5. rewrite !app_assoc. apply Permutation_app_tail. apply Permutation_app_comm.
Qed.

Theorem dict_refines_map nb (ops : list (mop K V)) :
  0 < nb ->
  exists d' outs g, dict_run hashf keycmpf (dict_new nb) ops = Ok (d', outs, g) /\
    Forall2 out_agrees outs (snd (m_run eqb [] ops)) /\
    Permutation (dict_entries d') (fst (m_run eqb [] ops)).
Proof.
  intro Hnb. pose proof (Wf_new nb Hnb) as HW.
  assert (HE : dict_entries (@dict_new K V nb) = []).
  { destruct HW as (_ & _ & _ & HP). rewrite entries_pb.
    unfold pb, dict_new; cbn [buckets]. unfold pentries. induction (Z.to_nat nb); cbn; auto. }
  destruct (dict_run_ok ops (dict_new nb) [] HW) as (d' & outs & g & H1 & H2 & H3 & H4 & H5).
  { rewrite HE; constructor. }
  exists d', outs, g. auto.
Qed.

Theorem dict_destroyed_once nb (ops : list (mop K V)) :
  0 < nb ->
  exists d' outs g, dict_run hashf keycmpf (dict_new nb) ops = Ok (d', outs, g) /\
    Permutation (written ops) (g ++ dict_entries d') /\
    Permutation (written ops) (g ++ dict_destroy d').
Proof.
  intro Hnb. pose proof (Wf_new nb Hnb) as HW.
  assert (HE : dict_entries (@dict_new K V nb) = []).
  { rewrite entries_pb. unfold pb, dict_new; cbn [buckets]. unfold pentries. induction (Z.to_nat nb); cbn; auto. }
  destruct (dict_run_ok ops (dict_new nb) [] HW) as (d' & outs & g & H1 & H2 & H3 & H4 & H5).
  { rewrite HE; constructor. }
  rewrite HE, app_nil_r in H5. exists d', outs, g. auto.
Qed.

End Buckets.

(** * Key types *)
Lemma strcmp_refl a : strcmp a a = 0.
Proof. induction a as [|x a IH]; cbn; auto. destruct (x <? x) eqn:?, (x >? x) eqn:?; lia. Qed.
Lemma strcmp_eq a b : strcmp a b = 0 <-> a = b.
Proof.
  split; [|intros ->; apply strcmp_refl].
  revert b; induction a as [|x a IH]; intros [|y b] H; cbn in *; try congruence; try lia.
  destruct (x <? y) eqn:?, (x >? y) eqn:?; try lia. f_equal; [lia|auto].
Qed.

Definition str_eqb (a b : list Z) : bool := if list_eq_dec Z.eq_dec a b then true else false.
Lemma str_eqb_eq a b : str_eqb a b = true <-> a = b.
Proof. unfold str_eqb. destruct (list_eq_dec Z.eq_dec a b); split; congruence. Qed.
Lemma str_eqb_equiv : eqb_equiv str_eqb.
Proof.
  repeat split.
  - intro a; apply str_eqb_eq; auto.
  - intros a b. destruct (str_eqb a b) eqn:E, (str_eqb b a) eqn:E2; auto;
      rewrite ?str_eqb_eq in *; subst; rewrite ?E in *; try discriminate;
      apply not_true_iff_false in E || apply not_true_iff_false in E2; exfalso;
      rewrite str_eqb_eq in *; auto.
  - intros a b c H1 H2. rewrite str_eqb_eq in *. congruence.
Qed.
Lemma strcmp_str_eqb a b : strcmp a b = 0 <-> str_eqb a b = true.
Proof. rewrite str_eqb_eq. apply strcmp_eq. Qed.

Lemma Zeqb_equiv : eqb_equiv Z.eqb.
Proof. repeat split; intros; lia. Qed.
Lemma intkeycmp_eqb a b : intkeycmp a b = 0 <-> (a =? b) = true.
Proof. unfold intkeycmp. destruct (a <? b) eqn:?, (a >? b) eqn:?; lia. Qed.
Definition u16_eqb (a b : Z) : bool := wrap16 a =? wrap16 b.
Lemma u16_eqb_equiv : eqb_equiv u16_eqb.
Proof. unfold u16_eqb. repeat split; intros; lia. Qed.
Lemma int16keycmp_eqb a b : int16keycmp a b = 0 <-> u16_eqb a b = true.
Proof.
  unfold int16keycmp, u16_eqb. rewrite intkeycmp_eqb. unfold int16_of.
  assert (0 <= wrap16 a < 2 ^ 16) by (unfold wrap16; apply Z.mod_pos_bound; lia).
  assert (0 <= wrap16 b < 2 ^ 16) by (unfold wrap16; apply Z.mod_pos_bound; lia).
  destruct (wrap16 a <? 2 ^ 15) eqn:?, (wrap16 b <? 2 ^ 15) eqn:?; lia.
Qed.
Lemma int16keyhash_eqb a b : u16_eqb a b = true -> int16keyhash a = int16keyhash b.
Proof. unfold u16_eqb, int16keyhash. intro H. replace (wrap16 b) with (wrap16 a) by lia. reflexivity. Qed.
Lemma uintkeyhash_eqb a b : (a =? b) = true -> uintkeyhash a = uintkeyhash b.
Proof. intro H. replace b with a by lia. reflexivity. Qed.
Lemma strkeyhash_eqb a b : str_eqb a b = true -> strkeyhash a = strkeyhash b.
Proof. rewrite str_eqb_eq. intros ->. reflexivity. Qed.
