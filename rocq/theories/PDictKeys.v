(** Interface lemmas for the dictionaries of PDict.v, packaged for the higher layers. *)
From Verif Require Import Base ListLemmas Dict DictSpec PDict DictProofs.

(** Hash and comparison functions that agree with an equivalence of keys. *)
Definition goodkeys {K} (hashf : K -> Z) (keycmpf : K -> K -> Z) (eqb : K -> K -> bool) : Prop :=
  eqb_equiv eqb /\ (forall a b, keycmpf a b = 0 <-> eqb a b = true) /\
  (forall a b, eqb a b = true -> hashf a = hashf b).

Section Keys.
Context {K V : Type}.
Variables (hashf : K -> Z) (keycmpf : K -> K -> Z) (eqb : K -> K -> bool).
Hypothesis G : goodkeys hashf keycmpf eqb.
Notation pget := (pget (V:=V) hashf keycmpf).
Notation pset := (pset (V:=V) hashf keycmpf).
Notation premove := (premove (V:=V) hashf keycmpf).
Notation pmodify := (pmodify (V:=V) hashf keycmpf).
Notation PWf := (PWf (V:=V) hashf eqb).

Lemma wf_new nb : 0 < nb -> PWf (pnew nb).
Proof. destruct G as (H1 & H2 & H3). apply PWf_new; auto. Qed.
Lemma wf_set p k v : PWf p -> PWf (pset p k v).
Proof. destruct G as (H1 & H2 & H3). intro H. eapply pset_ok; eauto. Qed.
Lemma wf_remove p k : PWf p -> PWf (premove p k).
Proof. destruct G as (H1 & H2 & H3). intro H. eapply premove_ok; eauto. Qed.
Lemma wf_modify p k f : PWf p -> PWf (pmodify p k f).
Proof. destruct G as (H1 & H2 & H3). intro H. eapply pmodify_ok; eauto. Qed.
Lemma get_new nb k : 0 < nb -> pget (pnew nb) k = None.
Proof. destruct G as (H1 & H2 & H3). intro H. eapply pget_new; eauto. Qed.
Lemma get_set p k v k' : PWf p -> pget (pset p k v) k' = if eqb k k' then Some v else pget p k'.
Proof.
  destruct G as (H1 & H2 & H3). intro H. destruct (eqb k k') eqn:E.
  - eapply pget_pset_same; eauto. destruct H1 as (_ & Hs & _). rewrite Hs; auto.
  - eapply pget_pset_other; eauto.
Qed.
Lemma get_remove p k k' : PWf p -> pget (premove p k) k' = if eqb k k' then None else pget p k'.
Proof.
  destruct G as (H1 & H2 & H3). intro H. destruct (eqb k k') eqn:E.
  - eapply pget_premove_same; eauto.
  - eapply pget_premove_other; eauto.
Qed.
Lemma get_modify p k f k' :
  PWf p -> pget (pmodify p k f) k' = if eqb k k' then option_map f (pget p k') else pget p k'.
Proof. destruct G as (H1 & H2 & H3). intro H. eapply pget_pmodify; eauto. Qed.
Lemma get_in p k v : PWf p -> (pget p k = Some v <-> exists k', In (k', v) (pentries p) /\ eqb k k' = true).
Proof. destruct G as (H1 & H2 & H3). intro H. eapply pget_in; eauto. Qed.
Lemma get_none p k : PWf p -> (pget p k = None <-> forall e, In e (pentries p) -> eqb k (fst e) = false).
Proof.
  destruct G as (H1 & H2 & H3). intro H. rewrite (pget_m_get hashf keycmpf eqb H1 H2 H3) by auto.
  apply m_get_none; auto.
Qed.
Lemma get_cong p k k' : PWf p -> eqb k k' = true -> pget p k = pget p k'.
Proof.
  intros H E. destruct (pget p k) as [v|] eqn:Eg.
  - apply get_in in Eg as (k2 & Hin & H2); auto. symmetry. apply get_in; auto. exists k2. split; auto.
    destruct G as (GE & _). rewrite <- (eqb_cong eqb GE k k' k2 E). exact H2.
  - symmetry. apply get_none; auto. intros e He. rewrite get_none in Eg by auto.
    destruct G as (GE & _). rewrite <- (eqb_cong eqb GE k k' (fst e) E). auto.
Qed.
Lemma size_set p k v : PWf p ->
  psize (pset p k v) = psize p + match pget p k with Some _ => 0 | None => 1 end.
Proof.
  destruct G as (H1 & H2 & H3). intro H. unfold psize, zlen.
  destruct (pset_ok hashf keycmpf eqb H1 H2 H3 p k v H) as [_ HP].
  rewrite (Permutation_length HP). unfold m_set. rewrite app_length. cbn [length].
  rewrite (pget_m_get hashf keycmpf eqb H1 H2 H3) by auto.
  destruct (m_get eqb (pentries p) k) as [v0|] eqn:E.
  - destruct (m_without_present eqb H1 _ _ _ (proj1 (proj2 H)) E) as (k' & _ & HP2).
    rewrite (Permutation_length HP2). cbn [length]. lia.
  - rewrite m_without_id by auto. lia.
Qed.
Lemma size_remove p k : PWf p ->
  psize (premove p k) = psize p - match pget p k with Some _ => 1 | None => 0 end.
Proof.
  destruct G as (H1 & H2 & H3). intro H. unfold psize, zlen.
  destruct (premove_ok hashf keycmpf eqb H1 H2 H3 p k H) as [_ HE]. rewrite HE.
  rewrite (pget_m_get hashf keycmpf eqb H1 H2 H3) by auto.
  destruct (m_get eqb (pentries p) k) as [v0|] eqn:E.
  - destruct (m_without_present eqb H1 _ _ _ (proj1 (proj2 H)) E) as (k' & _ & HP2).
    pose proof (Permutation_length HP2) as HL. cbn [length] in HL. lia.
  - rewrite m_without_id by auto. lia.
Qed.
Lemma entries_nodup p : PWf p -> NoDupK eqb (pentries p).
Proof. intro H; apply H. Qed.
End Keys.

Lemma good_str : goodkeys strkeyhash strcmp str_eqb.
Proof. repeat split; try apply str_eqb_equiv; try apply strcmp_str_eqb. apply strkeyhash_eqb. Qed.
Lemma good_i16 : goodkeys int16keyhash int16keycmp u16_eqb.
Proof. repeat split; try apply u16_eqb_equiv; try apply int16keycmp_eqb. apply int16keyhash_eqb. Qed.
Lemma good_u : goodkeys uintkeyhash intkeycmp Z.eqb.
Proof. repeat split; try apply Zeqb_equiv; try apply intkeycmp_eqb. apply uintkeyhash_eqb. Qed.
