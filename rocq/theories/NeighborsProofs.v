From Verif Require Import Base ListLemmas Dict DictSpec PDict DictProofs PDictKeys Strman Obj ObjSpec ObjProofs OutMsg Swarm Neighbors.

Definition int_keys (t : table) : Prop := Forall (fun e => exists z, fst e = OInt z /\ int32_range z) (pentries t).

Section N.
Variable keep : Z -> bool.
Notation P := (key_class false (fun _ => 0)).
Notation G := (good_class false (fun _ => 0)).
Notation kh := (khash table_hash P).
Notation kget := (pget (V:=obj) kh (kcmp P)).
Notation kset := (pset (V:=obj) kh (kcmp P)).
Notation ktwf := (twf (V:=obj) table_hash P).

Lemma P_int z : int32_range z -> P (OInt z) = true.
Proof. unfold int32_range. cbn. unfold int32_rangeb. lia. Qed.

Lemma filter_ok l : Forall (fun e : obj * obj => exists z, fst e = OInt z /\ int32_range z) l -> NoDupK (keqb P) l -> forall t, ktwf t ->
  exists t', nb_filter keep l t = Ok t' /\ ktwf t' /\
    forall r, int32_range r -> kget t' (OInt r) =
      if keep r then match m_get (keqb P) l (OInt r) with Some v => Some v | None => kget t (OInt r) end else kget t (OInt r).
Proof.
  induction l as [|[k v] l IH]; intros HF HN t HT; cbn [nb_filter].
  - exists t. splits; auto. intros r Hr. cbn. destruct (keep r); auto.
  - inversion HF as [|? ? (z & Hz & Rz) HF']; subst. cbn [fst] in Hz. subst k. cbn [key_int bind]. destruct HN as [Hd HN].
    assert (Hkz : P (OInt z) = true) by (apply P_int; auto).
    assert (HM : forall r, int32_range r -> m_get (keqb P) ((OInt z, v) :: l) (OInt r) = if r =? z then Some v else m_get (keqb P) l (OInt r)).
    { intros r Hr. cbn [m_get find fst snd]. unfold m_get. cbn [find fst]. rewrite (keqb_in _ _ _ G) by (apply P_int; auto). cbn [same_key].
      destruct (r =? z); auto. }
    assert (HZ : m_get (keqb P) l (OInt z) = None).
    { apply m_get_none. intros e He. apply Hd; auto. }
    destruct (keep z) eqn:Ez.
    + unfold tab_set. rewrite (rset_pset _ _ _ G) by auto. cbn [bind].
      destruct (IH HF' HN (kset t (OInt z) v)) as (t' & E & HT' & HG); [apply (twf_set _ _ _ G); auto|].
      exists t'. splits; auto. intros r Hr. rewrite HG, HM by auto. rewrite (get_set _ _ _ (good_k _ _ _ G)) by apply HT.
      rewrite (keqb_in _ _ _ G) by (auto; apply P_int; auto). cbn [same_key]. rewrite (Z.eqb_sym z r). destruct (r =? z) eqn:Er.
      * assert (r = z) by lia. subst r. rewrite Ez, HZ. auto.
      * auto.
    + destruct (IH HF' HN t HT) as (t' & E & HT' & HG). exists t'. splits; auto. intros r Hr. rewrite HG, HM by auto.
      destruct (keep r) eqn:Er; auto. destruct (r =? z) eqn:Erz; auto. assert (r = z) by lia. subst r. congruence.
Qed.

Lemma filter_table d : ktwf d -> int_keys d ->
  exists t', nb_filter keep (pentries d) tab_new = Ok t' /\
    forall r, int32_range r -> exists v, tab_get d (OInt r) = Ok v /\ tab_get t' (OInt r) = Ok (if keep r then v else None).
Proof.
  intros HT HI. destruct (filter_ok (pentries d) HI (proj1 (proj2 (proj1 (proj2 HT)))) (pnew 10) (twf_new _ _ _ G)) as (t' & E & HT' & HG).
  exists t'. split; [exact E|]. intros r Hr. exists (kget d (OInt r)). assert (Hp := P_int r Hr). split; [apply (rget_pget _ _ _ G); auto|].
  unfold tab_get. rewrite (rget_pget _ _ _ G) by auto. rewrite HG by auto. rewrite (get_new _ _ _ (good_k _ _ _ G)) by lia.
  rewrite (pget_m_get _ _ _ (proj1 (good_k _ _ _ G)) (proj1 (proj2 (good_k _ _ _ G))) (proj2 (proj2 (good_k _ _ _ G))) d) by apply HT.
  destruct (m_get (keqb P) (pentries d) (OInt r)); auto.
Qed.
End N.
