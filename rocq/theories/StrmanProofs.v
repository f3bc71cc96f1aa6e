From Verif Require Import Base ListLemmas Dict DictSpec PDict DictProofs PDictKeys BSet BSetProofs
  Strman StrmanSpec.

Lemma intkeycmp_total : total_order intkeycmp.
Proof.
  unfold total_order, intkeycmp. splits; intros;
    repeat match goal with |- context[if ?b then _ else _] => destruct b eqn:? 
           | H : context[if ?b then _ else _] |- _ => destruct b eqn:? end; lia.
Qed.

Lemma idtree_insert_eq t x : idtree_insert t x = fst (tree_insert intkeycmp t x).
Proof.
  induction t as [|l IHl y r IHr]; cbn; auto. unfold intkeycmp at 1 3.
  destruct (x <? y) eqn:E1; [|destruct (x >? y) eqn:E2]; cbn.
  - rewrite IHl. destruct (tree_insert _ l x); reflexivity.
  - rewrite IHr. destruct (tree_insert _ r x); reflexivity.
  - reflexivity.
Qed.

Lemma idtree_remove_eq t : forall x, idtree_remove t x = fst (fst (tree_remove intkeycmp t x)).
Proof.
  induction t as [|l IHl y r IHr]; intro x; auto. cbn [idtree_remove tree_remove]. cbv zeta.
  unfold intkeycmp at 1 3. destruct (x <? y) eqn:E1; [|destruct (x >? y) eqn:E2].
  - rewrite IHl. cbn [Z.ltb Z.compare]. destruct (tree_remove _ l x) as [[? ?] ?]; reflexivity.
  - rewrite IHr. cbn [Z.ltb Z.gtb Z.compare]. destruct (tree_remove _ r x) as [[? ?] ?]; reflexivity.
  - cbn [Z.ltb Z.gtb Z.compare]. destruct l, r; try reflexivity.
    destruct (tree_min _) eqn:Em; [|reflexivity]. rewrite IHr.
    destruct (tree_remove intkeycmp (Node r1 x1 r2) z) as [[? ?] ?]; reflexivity.
Qed.

Notation wfS := (PWf (V:=Z) strkeyhash str_eqb).
Notation wfI := (PWf (V:=str * bool) int16keyhash u16_eqb).

Record SInv (sm : strman) (M : livemap) : Prop := {
  si_wf1 : wfS (str2id sm);
  si_wf2 : wfI (id2str sm);
  si_s2i : forall s, s2i_get (str2id sm) s = option_map fst (M s);
  si_i2s : forall i s q, 0 <= i < 65536 -> (i2s_get (id2str sm) i = Some (s, q) <-> M s = Some (i, q));
  si_rng : forall s i q, M s = Some (i, q) -> 0 <= i < 65536;
  si_size : psize (id2str sm) = psize (str2id sm)
}.
(** Between collections. *)
Definition SIdle (sm : strman) : Prop :=
  gcdata sm = Leaf /\ 0 <= maxsid sm < 65536 /\ i2s_get (id2str sm) (maxsid sm) = None.

Lemma u16_eqb_rng i j : 0 <= i < 65536 -> 0 <= j < 65536 -> u16_eqb i j = (i =? j).
Proof. intros. unfold u16_eqb, wrap16. rewrite !Z.mod_small by (cbn; lia). reflexivity. Qed.

Lemma SInv_ext sm M M' : (forall t, M' t = M t) -> SInv sm M -> SInv sm M'.
Proof.
  intros HE [H1 H2 H3 H4 H5 H6]. constructor; auto.
  - intro s. rewrite HE. auto.
  - intros. rewrite HE. auto.
  - intros s i q. rewrite HE. apply H5.
Qed.

Lemma SInv_new : SInv sm_new (fun _ => None) /\ SIdle sm_new.
Proof.
  split; [constructor|].
  - apply (wf_new strkeyhash strcmp str_eqb good_str). lia.
  - apply (wf_new int16keyhash int16keycmp u16_eqb good_i16). lia.
  - intro s. apply (get_new strkeyhash strcmp str_eqb good_str). lia.
  - intros i s q _. unfold sm_new, id2str, i2s_get.
    rewrite (get_new int16keyhash int16keycmp u16_eqb good_i16) by lia. split; discriminate.
  - discriminate.
  - reflexivity.
  - unfold SIdle. cbn [sm_new gcdata maxsid]. splits; auto; try lia.
Qed.

Lemma ids_unique sm M : SInv sm M -> forall s t i q r, M s = Some (i, q) -> M t = Some (i, r) -> s = t.
Proof.
  intros H s t i q r Hs Ht. pose proof (si_rng _ _ H _ _ _ Hs) as Hi.
  apply (si_i2s _ _ H) in Hs; auto. apply (si_i2s _ _ H) in Ht; auto. congruence.
Qed.

Lemma i2s_dom sm M : SInv sm M -> forall i, 0 <= i < 65536 ->
  (i2s_get (id2str sm) i = None <-> forall s q, M s <> Some (i, q)).
Proof.
  intros H i Hi. destruct (i2s_get (id2str sm) i) as [[s q]|] eqn:E.
  - apply (si_i2s _ _ H) in E; auto. split; [discriminate|]. intro Hn. destruct (Hn s q E).
  - split; auto. intros _ s q Hs. apply (si_i2s _ _ H) in Hs; auto. congruence.
Qed.

(** The search for a free id. *)
Lemma wrap16_rng z : 0 <= wrap16 z < 65536.
Proof. unfold wrap16. pose proof (Z.mod_pos_bound z (2^16)). lia. Qed.
Lemma wrap16_id z : 0 <= z < 65536 -> wrap16 z = z.
Proof. unfold wrap16. intro. apply Z.mod_small. lia. Qed.
Lemma wrap16_add a b : wrap16 (wrap16 a + b) = wrap16 (a + b).
Proof. unfold wrap16. rewrite Zplus_mod_idemp_l. reflexivity. Qed.

Lemma find_free_first ids : forall n fuel m,
  (n < fuel)%nat -> 0 <= m < 65536 ->
  (forall j, (j < n)%nat -> i2s_get ids (wrap16 (m + Z.of_nat j)) <> None) ->
  i2s_get ids (wrap16 (m + Z.of_nat n)) = None ->
  find_free fuel ids m = Ok (wrap16 (m + Z.of_nat n)).
Proof.
  induction n as [|n IH]; intros [|fuel] m Hf Hm HT HF; try lia; cbn [find_free].
  - change (Z.of_nat 0) with 0 in HF |- *. rewrite Z.add_0_r in HF |- *.
    rewrite wrap16_id in HF by lia. rewrite HF, wrap16_id by lia. reflexivity.
  - pose proof (HT O ltac:(lia)) as H0. rewrite Z.add_0_r, wrap16_id in H0 by lia.
    destruct (i2s_get ids m) eqn:E; [|congruence].
    rewrite (IH fuel (wrap16 (m + 1))).
    + rewrite wrap16_add. do 2 f_equal. lia.
    + lia.
    + apply wrap16_rng.
    + intros j Hj. rewrite wrap16_add. specialize (HT (S j) ltac:(lia)).
      replace (m + 1 + Z.of_nat j) with (m + Z.of_nat (S j)) by lia. exact HT.
    + rewrite wrap16_add. replace (m + 1 + Z.of_nat n) with (m + Z.of_nat (S n)) by lia. exact HF.
Qed.

Lemma find_free_all_taken ids : (forall i, 0 <= i < 65536 -> i2s_get ids i <> None) ->
  forall fuel m, 0 <= m < 65536 -> find_free fuel ids m = Hang.
Proof.
  intros H. induction fuel as [|fuel IH]; intros m Hm; cbn [find_free]; auto.
  specialize (H m Hm) as H'. destruct (i2s_get ids m); [|congruence]. apply IH. apply wrap16_rng.
Qed.

Lemma first_free (P : nat -> bool) : forall n, (exists j, (j < n)%nat /\ P j = true) ->
  exists k, (k < n)%nat /\ P k = true /\ forall j, (j < k)%nat -> P j = false.
Proof.
  induction n as [|n IH]; intros (j & Hj & HP); [lia|].
  destruct (existsb P (seq 0 n)) eqn:E.
  - apply existsb_exists in E as (k & Hk & HPk). apply in_seq in Hk.
    destruct IH as (k' & H1 & H2 & H3); [exists k; split; auto; lia|]. exists k'. splits; auto.
  - assert (HN : forall i, (i < n)%nat -> P i = false).
    { intros i Hi. destruct (P i) eqn:Ei; auto. rewrite <- E. symmetry. apply existsb_exists. exists i.
      split; auto. apply in_seq. lia. }
    assert (j = n). { destruct (Nat.eq_dec j n); auto. rewrite HN in HP by lia. discriminate. }
    subst. exists n. splits; auto.
Qed.

Lemma pigeon ids (m : Z) (n : nat) : wfI ids -> Z.of_nat n <= 65536 -> psize ids < Z.of_nat n ->
  exists j, (j < n)%nat /\ i2s_get ids (wrap16 (m + Z.of_nat j)) = None.
Proof.
  intros HW Hn Hs.
  set (f := fun j => wrap16 (m + Z.of_nat j)).
  destruct (existsb (fun j => match i2s_get ids (f j) with None => true | _ => false end) (seq 0 n)) eqn:E.
  - apply existsb_exists in E as (j & Hj & HP). apply in_seq in Hj. exists j. split; [lia|].
    unfold f in HP. destruct (i2s_get ids _); [discriminate|auto].
  - exfalso. assert (Hall : forall j, (j < n)%nat -> exists e, In e (pentries ids) /\ u16_eqb (f j) (fst e) = true).
    { intros j Hj. destruct (i2s_get ids (f j)) as [v|] eqn:Ej.
      - unfold i2s_get in Ej. apply (get_in _ _ _ good_i16) in Ej as (k' & Hin & Hk); auto.
        exists (k', v). auto.
      - exfalso. assert (existsb (fun j => match i2s_get ids (f j) with None => true | _ => false end) (seq 0 n) = true); [|congruence].
        apply existsb_exists. exists j. split; [apply in_seq; lia|]. rewrite Ej. reflexivity. }
    assert (HL : (length (map f (seq 0 n)) <= length (map (fun e => wrap16 (fst e)) (pentries ids)))%nat).
    { apply NoDup_incl_length.
      - apply NoDup_map_in; [|apply seq_NoDup].
        intros a b Ha Hb. apply in_seq in Ha, Hb. unfold f, wrap16. intro HE.
        clear - HE Ha Hb Hn. change (2 ^ 16) with 65536 in HE.
        assert (Z.of_nat a = Z.of_nat b); lia.
      - intros i Hi. apply in_map_iff in Hi as (j & <- & Hj). apply in_seq in Hj.
        destruct (Hall j ltac:(lia)) as (e & He & Hk). apply in_map_iff. exists e. split; auto.
        unfold u16_eqb in Hk. unfold f in *. rewrite (wrap16_id (wrap16 _)) in Hk by apply wrap16_rng.
        lia. }
    rewrite !map_length, seq_length in HL. unfold psize, zlen in Hs. lia.
Qed.

(** Registration. *)
Lemma lm_set_same M s x : lm_set M s x s = Some x.
Proof. unfold lm_set. destruct (str_dec s s); congruence. Qed.
Lemma lm_set_other M s x t : t <> s -> lm_set M s x t = M t.
Proof. unfold lm_set. destruct (str_dec t s); congruence. Qed.

Lemma str_eqb_neq a b : a <> b -> str_eqb a b = false.
Proof. intro H. destruct (str_eqb a b) eqn:E; auto. apply str_eqb_eq in E. congruence. Qed.
Lemma str_eqb_refl a : str_eqb a a = true.
Proof. apply str_eqb_eq; auto. Qed.

Lemma SInv_add sm M s p i :
  SInv sm M -> M s = None -> 0 <= i < 65536 -> i2s_get (id2str sm) i = None ->
  forall m g, SInv (mkSm (s2i_set (str2id sm) s i) (i2s_set (id2str sm) i (s, p)) m g) (lm_set M s (i, p)).
Proof.
  intros H Hs Hi Hf m g. pose proof (proj1 (i2s_dom _ _ H i Hi) Hf) as Hfree.
  constructor; cbn [str2id id2str].
  - apply (wf_set _ _ _ good_str). apply H.
  - apply (wf_set _ _ _ good_i16). apply H.
  - intro t. unfold s2i_get, s2i_set. rewrite (get_set _ _ _ good_str) by apply H.
    destruct (str_dec t s) as [->|Ht].
    + rewrite str_eqb_refl, lm_set_same. reflexivity.
    + rewrite str_eqb_neq, lm_set_other by auto. apply (si_s2i _ _ H).
  - intros j t q Hj. unfold i2s_get, i2s_set. rewrite (get_set _ _ _ good_i16) by apply H.
    rewrite u16_eqb_rng by auto. destruct (i =? j) eqn:E.
    + apply Z.eqb_eq in E; subst j. unfold lm_set. destruct (str_dec t s) as [->|Ht].
      * split; intro HH; inversion HH; auto.
      * split; intro HH; [inversion HH; subst; congruence|destruct (Hfree _ _ HH)].
    + unfold lm_set. destruct (str_dec t s) as [->|Ht].
      * split; intro HH; [|inversion HH; lia].
        apply (si_i2s _ _ H) in HH; auto. congruence.
      * apply (si_i2s _ _ H); auto.
  - intros t j q. unfold lm_set. destruct (str_dec t s); [intro HH; inversion HH; subst; auto|apply (si_rng _ _ H)].
  - unfold i2s_set, s2i_set. rewrite (size_set _ _ _ good_i16) by apply H. rewrite (size_set _ _ _ good_str) by apply H.
    unfold i2s_get in Hf. rewrite Hf. pose proof (si_s2i _ _ H s) as Hg. rewrite Hs in Hg.
    unfold s2i_get in Hg. rewrite Hg. rewrite (si_size _ _ H). reflexivity.
Qed.

Lemma psize_modify ids i f : wfI ids -> psize (i2s_modify ids i f) = psize ids.
Proof.
  intro H. destruct good_i16 as (H1 & H2 & H3).
  destruct (pmodify_ok _ _ _ H1 H2 H3 ids i f H) as [_ HE]. unfold psize, i2s_modify. rewrite HE.
  unfold m_modify. apply zlen_map.
Qed.

Lemma SInv_protect sm M s i q :
  SInv sm M -> M s = Some (i, q) ->
  forall m g, SInv (mkSm (str2id sm) (i2s_modify (id2str sm) i (fun d => (fst d, true))) m g) (lm_set M s (i, true)).
Proof.
  intros H Hs m g. pose proof (si_rng _ _ H _ _ _ Hs) as Hi.
  constructor; cbn [str2id id2str]; try apply H.
  - apply (wf_modify _ _ _ good_i16). apply H.
  - intro t. rewrite (si_s2i _ _ H). unfold lm_set. destruct (str_dec t s) as [->|]; auto. rewrite Hs. reflexivity.
  - intros j t r Hj. unfold i2s_get, i2s_modify. rewrite (get_modify _ _ _ good_i16) by apply H.
    rewrite u16_eqb_rng by auto. destruct (i =? j) eqn:E.
    + apply Z.eqb_eq in E; subst j. pose proof (proj2 (si_i2s _ _ H i s q Hi) Hs) as Hg.
      unfold i2s_get in Hg. rewrite Hg. cbn. unfold lm_set. destruct (str_dec t s) as [->|Ht].
      * split; intro HH; inversion HH; auto.
      * split; intro HH; [inversion HH; congruence|]. exfalso. apply Ht.
        eapply ids_unique; eauto.
    + unfold lm_set. destruct (str_dec t s) as [->|Ht].
      * split; intro HH; [|inversion HH; lia].
        apply (si_i2s _ _ H) in HH; auto. rewrite Hs in HH. inversion HH; lia.
      * apply (si_i2s _ _ H); auto.
  - intros t j r. unfold lm_set. destruct (str_dec t s); [intro HH; inversion HH; subst; auto|apply (si_rng _ _ H)].
  - rewrite psize_modify by apply H. apply (si_size _ _ H).
Qed.

Lemma register_ok sm M s p :
  SInv sm M -> SIdle sm -> sm_live sm < 65534 ->
  exists sm' id M', sm_register sm_fuel sm s p = Ok (sm', id) /\
    sm_spec M (SmReg s p) (SmId id) M' /\ SInv sm' M' /\ SIdle sm'.
Proof.
  intros H (Hg & Hm & Hfree) Hlive. unfold sm_register.
  pose proof (si_s2i _ _ H s) as HS. destruct (M s) as [[i q]|] eqn:EM; rewrite HS; cbn [option_map fst].
  - pose proof (si_rng _ _ H _ _ _ EM) as Hi.
    pose proof (proj2 (si_i2s _ _ H i s q Hi) EM) as Hgi. rewrite Hgi.
    destruct p.
    + eexists _, i, (lm_set M s (i, true)). split; [reflexivity|]. splits.
      * exists i. rewrite EM. splits; auto; try apply Hi. intro t. rewrite orb_true_r. reflexivity.
      * eapply SInv_protect; eauto.
      * unfold SIdle. cbn [gcdata maxsid id2str]. splits; auto; try lia.
        unfold i2s_get, i2s_modify. rewrite (get_modify _ _ _ good_i16) by apply H.
        unfold i2s_get in Hfree. rewrite Hfree. destruct (u16_eqb i (maxsid sm)); reflexivity.
    + exists sm, i, M. split; [reflexivity|]. splits; auto.
      * exists i. rewrite EM. splits; auto; try apply Hi. intro t. rewrite orb_false_r.
        unfold lm_set. destruct (str_dec t s); subst; auto.
      * unfold SIdle; auto.
  - set (m1 := wrap16 (maxsid sm + 1)). set (m2 := if m1 =? 0 then wrap16 (m1 + 1) else m1).
    assert (Hm2 : 0 <= m2 < 65536 /\ exists d, (d = 1 \/ d = 2) /\ m2 = wrap16 (maxsid sm + d)).
    { unfold m2, m1. destruct (_ =? 0).
      - split; [apply wrap16_rng|]. exists 2. split; auto. rewrite wrap16_add. f_equal. lia.
      - split; [apply wrap16_rng|]. exists 1. auto. }
    destruct Hm2 as (Hm2 & d & Hd & Hm2e).
    set (n := Z.to_nat 65534).
    destruct (pigeon (id2str sm) m2 n) as (j & Hj & HPj).
    { apply H. } { unfold n; lia. } { rewrite (si_size _ _ H). unfold sm_live, psize in *. unfold n. lia. }
    destruct (first_free (fun j => match i2s_get (id2str sm) (wrap16 (m2 + Z.of_nat j)) with None => true | _ => false end) n)
      as (k & Hk & HPk & Hmin).
    { exists j. split; auto. rewrite HPj. reflexivity. }
    assert (Hfk : i2s_get (id2str sm) (wrap16 (m2 + Z.of_nat k)) = None)
      by (destruct (i2s_get _ (wrap16 (m2 + Z.of_nat k))); [discriminate|auto]).
    rewrite (find_free_first _ k sm_fuel m2); auto.
    2:{ unfold sm_fuel. unfold n in Hk. lia. }
    2:{ intros j' Hj'. specialize (Hmin j' Hj'). cbv beta in Hmin.
        intro HX. rewrite HX in Hmin. discriminate. }
    cbn [bind]. eexists _, (maxsid sm), (lm_set M s (maxsid sm, p)). split; [reflexivity|]. splits.
    + exists (maxsid sm). rewrite EM. splits; auto; try lia.
      intros t q HH. apply (si_i2s _ _ H) in HH; [|lia]. congruence.
    + apply SInv_add; auto.
    + unfold SIdle. cbn [gcdata maxsid id2str]. splits; auto; try apply wrap16_rng.
      unfold i2s_get, i2s_set. rewrite (get_set _ _ _ good_i16) by apply H.
      rewrite u16_eqb_rng by (auto; apply wrap16_rng).
      destruct (maxsid sm =? wrap16 (m2 + Z.of_nat k)) eqn:E; [|exact Hfk].
      exfalso. apply Z.eqb_eq in E. rewrite Hm2e, wrap16_add in E. unfold wrap16 in E.
      change (2 ^ 16) with 65536 in E. unfold n in Hk. lia.
Qed.

Lemma get_ok sm M i : SInv sm M -> 0 <= i < 65536 ->
  sm_spec M (SmGet i) (SmStr (sm_get sm i)) M.
Proof.
  intros H Hi. split; auto. exists (sm_get sm i). split; auto. intro s. unfold sm_get.
  destruct (i2s_get (id2str sm) i) as [[s' q]|] eqn:E; cbn [fst].
  - apply (si_i2s _ _ H) in E; auto. split.
    + intro HH; inversion HH; subst. eauto.
    + intros (r & Hr). f_equal. eapply ids_unique; eauto.
  - split; [discriminate|]. intros (r & Hr). apply (si_i2s _ _ H) in Hr; auto. congruence.
Qed.

(** Collection. *)
Definition with_gc (sm : strman) (g : tree Z) : strman := mkSm (str2id sm) (id2str sm) (maxsid sm) g.

Notation bstZ := (bst intkeycmp).
Lemma clear_ok sm M : SInv sm M -> SIdle sm ->
  exists g, sm_gc_clear sm = with_gc sm g /\ bstZ g /\
    forall i, tin i g <-> exists s, M s = Some (i, false).
Proof.
  intros H (Hg & _). unfold sm_gc_clear.
  assert (HH : forall es sm1, str2id sm1 = str2id sm -> id2str sm1 = id2str sm -> maxsid sm1 = maxsid sm ->
     bstZ (gcdata sm1) ->
     exists g, fold_left sm_unmark es sm1 = with_gc sm g /\ bstZ g /\
       forall i, tin i g <-> tin i (gcdata sm1) \/
         exists s q, In (s, i) es /\ i2s_get (id2str sm) i = Some (q, false)).
  { induction es as [|[s i] es IH]; intros sm1 E1 E2 E3 HB; cbn [fold_left].
    - exists (gcdata sm1). splits; auto.
      + destruct sm1; cbn in *. unfold with_gc. congruence.
      + intro i. split; auto. intros [|(s & q & [] & _)]; auto.
    - unfold sm_unmark at 2. cbn [snd]. rewrite E2.
      destruct (i2s_get (id2str sm) i) as [[t q]|] eqn:Ei; cbn [snd].
      + destruct q.
        * destruct (IH sm1) as (g & G1 & G2 & G3); auto. exists g. splits; auto.
          intro j. rewrite G3. split; intros [HA|(s' & q & Hin & Hq)]; auto; right; exists s', q.
          -- split; [right; auto|auto].
          -- destruct Hin as [HE|Hin]; [inversion HE; subst; congruence|auto].
        * match goal with |- context [fold_left _ _ ?x] => destruct (IH x) as (g & G1 & G2 & G3) end; cbn; auto.
          { rewrite idtree_insert_eq. apply insert_bst; auto. apply intkeycmp_total. }
          exists g. split; [exact G1|]. split; [exact G2|]. intro j. rewrite G3. cbn [gcdata].
          rewrite idtree_insert_eq, (insert_in _ intkeycmp_total). split.
          -- intros [[->|HA]|(s' & q & Hin & Hq)]; auto.
             ++ right. exists s, t. split; [left; auto|auto].
             ++ right. exists s', q. split; [right; auto|auto].
          -- intros [HA|(s' & q & [HE|Hin] & Hq)]; auto.
             ++ inversion HE; subst. auto.
             ++ right. exists s', q. auto.
      + destruct (IH sm1) as (g & G1 & G2 & G3); auto. exists g. splits; auto.
        intro j. rewrite G3. split; intros [HA|(s' & q & Hin & Hq)]; auto; right; exists s', q.
        -- split; [right; auto|auto].
        -- destruct Hin as [HE|Hin]; [inversion HE; subst; congruence|auto]. }
  destruct (HH (pentries (str2id sm)) sm) as (g & G1 & G2 & G3); auto.
  { rewrite Hg. cbn. auto. }
  exists g. splits; auto. intro i. rewrite G3, Hg. cbn [tin]. split.
  - intros [[]|(s & q & Hin & Hq)].
    assert (Hgs : s2i_get (str2id sm) s = Some i).
    { unfold s2i_get. apply (get_in _ _ _ good_str); [apply H|]. exists s. split; auto. apply str_eqb_refl. }
    rewrite (si_s2i _ _ H) in Hgs. destruct (M s) as [[i' b]|] eqn:EM; [|discriminate].
    cbn in Hgs. inversion Hgs; subst i'. pose proof (si_rng _ _ H _ _ _ EM) as Hi.
    apply (si_i2s _ _ H) in Hq; auto. eauto.
  - intros (s & Hs). right. pose proof (si_rng _ _ H _ _ _ Hs) as Hi. exists s, s. split.
    + pose proof (si_s2i _ _ H s) as Hgs. rewrite Hs in Hgs. cbn in Hgs. unfold s2i_get in Hgs.
      apply (get_in _ _ _ good_str) in Hgs as (s' & Hin & Hk); [|apply H]. apply str_eqb_eq in Hk. subst; auto.
    + apply (si_i2s _ _ H); auto.
Qed.

Lemma marks_ok sm M : SInv sm M -> forall marks g, bstZ g ->
  Forall (fun i => 0 <= i < 65536) marks ->
  (forall i, tin i g -> exists s, M s = Some (i, false)) ->
  exists g', fold_left sm_gc_mark marks (with_gc sm g) = with_gc sm g' /\ bstZ g' /\
    forall i, tin i g' <-> tin i g /\ ~ In i marks.
Proof.
  intros H. induction marks as [|m marks IH]; intros g HB HF HT; cbn [fold_left].
  - exists g. splits; auto. intro i; cbn; tauto.
  - inversion HF; subst. unfold sm_gc_mark at 2. cbn [with_gc id2str str2id maxsid gcdata].
    destruct (i2s_get (id2str sm) m) as [[t q]|] eqn:Em; cbn [snd].
    + apply (si_i2s _ _ H) in Em; auto. destruct q.
      * destruct (IH g) as (g' & G1 & G2 & G3); auto. exists g'. splits; auto. intro i. rewrite G3. cbn.
        split; [intros [Ha Hb]; split; auto|tauto]. intros [->|HH]; auto.
        destruct (HT _ Ha) as (s & Hs). pose proof (ids_unique _ _ H _ _ _ _ _ Hs Em). subst. congruence.
      * fold (with_gc sm (idtree_remove g m)). rewrite idtree_remove_eq.
        destruct (remove_correct intkeycmp intkeycmp_total g m HB) as (R1 & R2 & _).
        destruct (IH _ R1) as (g' & G1 & G2 & G3); auto.
        { intros i Hi. apply R2 in Hi as [_ Hi]. auto. }
        exists g'. splits; auto. intro i. rewrite G3, R2. cbn. intuition congruence.
    + destruct (IH g) as (g' & G1 & G2 & G3); auto. exists g'. splits; auto. intro i. rewrite G3. cbn.
      split; [intros [Ha Hb]; split; auto|tauto]. intros [->|HH]; auto.
      destruct (HT _ Ha) as (s & Hs). apply (si_i2s _ _ H) in Hs; auto. congruence.
Qed.

Definition lm_del (M : livemap) (i : Z) : livemap :=
  fun t => match M t with Some (j, q) => if j =? i then None else Some (j, q) | None => None end.

Lemma dispose_ok sm M s i q : SInv sm M -> M s = Some (i, q) ->
  exists sm', sm_dispose sm i = Ok sm' /\ SInv sm' (lm_del M i) /\ maxsid sm' = maxsid sm /\
    gcdata sm' = gcdata sm.
Proof.
  intros H Hs. pose proof (si_rng _ _ H _ _ _ Hs) as Hi.
  pose proof (proj2 (si_i2s _ _ H i s q Hi) Hs) as Hg. unfold sm_dispose. rewrite Hg. cbn [fst].
  eexists. splits; [reflexivity| |reflexivity|reflexivity].
  constructor; cbn [str2id id2str].
  - apply (wf_remove _ _ _ good_str). apply H.
  - apply (wf_remove _ _ _ good_i16). apply H.
  - intro t. unfold s2i_get, s2i_remove. rewrite (get_remove _ _ _ good_str) by apply H.
    unfold lm_del. destruct (str_dec t s) as [->|Ht].
    + rewrite str_eqb_refl, Hs, Z.eqb_refl. reflexivity.
    + rewrite str_eqb_neq by auto. fold (s2i_get (str2id sm) t). rewrite (si_s2i _ _ H).
      destruct (M t) as [[j r]|] eqn:Et; auto. destruct (j =? i) eqn:E; auto.
      apply Z.eqb_eq in E; subst. exfalso. apply Ht. eapply ids_unique; eauto.
  - intros j t r Hj. unfold i2s_get, i2s_remove. rewrite (get_remove _ _ _ good_i16) by apply H.
    rewrite u16_eqb_rng by auto. unfold lm_del. destruct (i =? j) eqn:E.
    + apply Z.eqb_eq in E; subst j. split; [discriminate|]. destruct (M t) as [[k b]|]; [|discriminate].
      destruct (k =? i) eqn:E2; [discriminate|]. intro HH; inversion HH; lia.
    + fold (i2s_get (id2str sm) j). rewrite (si_i2s _ _ H) by auto.
      destruct (M t) as [[k b]|]; [|tauto]. destruct (k =? i) eqn:E2; [|tauto].
      split; intro HH; inversion HH; lia.
  - intros t j r. unfold lm_del. destruct (M t) as [[k b]|] eqn:Et; [|discriminate].
    destruct (k =? i); [discriminate|]. intro HH; inversion HH; subst. eapply (si_rng _ _ H); eauto.
  - unfold i2s_remove, s2i_remove. rewrite (size_remove _ _ _ good_i16) by apply H. rewrite (size_remove _ _ _ good_str) by apply H.
    unfold i2s_get in Hg. rewrite Hg. pose proof (si_s2i _ _ H s) as Hg2. rewrite Hs in Hg2.
    unfold s2i_get in Hg2. rewrite Hg2. cbn. rewrite (si_size _ _ H). reflexivity.
Qed.

Lemma dispose_all_ok : forall L sm M, SInv sm M -> NoDup L ->
  (forall i, In i L -> exists s q, M s = Some (i, q)) ->
  exists sm', sm_dispose_all sm L = Ok sm' /\ maxsid sm' = maxsid sm /\
    SInv sm' (fun t => match M t with Some (j, q) => if existsb (Z.eqb j) L then None else Some (j, q) | None => None end).
Proof.
  induction L as [|i L IH]; intros sm M H HN HL; cbn [sm_dispose_all].
  - exists sm. splits; auto. eapply SInv_ext; [|exact H]. intro t. cbn. destruct (M t) as [[? ?]|]; auto.
  - inversion HN; subst. destruct (HL i (or_introl eq_refl)) as (s & q & Hs).
    destruct (dispose_ok sm M s i q H Hs) as (sm1 & E1 & H1 & Hm & Hg). rewrite E1. cbn [bind].
    destruct (IH sm1 (lm_del M i) H1) as (sm' & E2 & Hm2 & H2'); auto.
    { intros j Hj. destruct (HL j (or_intror Hj)) as (t & r & Ht). exists t, r. unfold lm_del. rewrite Ht.
      destruct (j =? i) eqn:E; auto. apply Z.eqb_eq in E; subst; tauto. }
    exists sm'. splits; auto; [congruence|]. eapply SInv_ext; [|exact H2']. intro t. unfold lm_del.
    destruct (M t) as [[j r]|]; auto. cbn [existsb]. destruct (j =? i); reflexivity.
Qed.

Lemma gc_ok sm M marks : SInv sm M -> SIdle sm -> Forall (fun i => 0 <= i < 65536) marks ->
  exists sm' M', sm_gc sm marks = Ok sm' /\ sm_spec M (SmGc marks) SmDone M' /\ SInv sm' M' /\ SIdle sm'.
Proof.
  intros H HI HF. unfold sm_gc. destruct (clear_ok sm M H HI) as (g & G1 & G2 & G3).
  rewrite G1. destruct (marks_ok sm M H marks g G2 HF) as (g' & K1 & K2 & K3).
  { intros i Hi. apply G3; auto. }
  rewrite K1. unfold sm_gc_prune. cbn [with_gc gcdata].
  assert (HW : SInv (with_gc sm g') M) by (destruct H; constructor; auto).
  assert (HN : NoDup (idtree_foreach g')) by (apply (foreach_nodup intkeycmp intkeycmp_total); auto).
  destruct (dispose_all_ok (idtree_foreach g') _ M HW HN) as (sm' & D1 & D2 & D3).
  { intros i Hi. apply tin_foreach in Hi. apply K3 in Hi as [Hi _]. apply G3 in Hi as (s & Hs). eauto. }
  rewrite D1. cbn [bind].
  eexists _, (fun t => match M t with Some (id, q) => if q || existsb (Z.eqb id) marks then Some (id, q) else None | None => None end).
  split; [reflexivity|]. splits.
  - cbn. split; auto.
  - assert (SInv (mkSm (str2id sm') (id2str sm') (maxsid sm') Leaf)
      (fun t => match M t with Some (j, q) => if existsb (Z.eqb j) (idtree_foreach g') then None else Some (j, q) | None => None end))
      as H9 by (destruct D3; constructor; auto).
    eapply SInv_ext; [|exact H9]. intro t. cbv beta. destruct (M t) as [[j q]|] eqn:Et; auto.
    assert (HE : existsb (Z.eqb j) (idtree_foreach g') = negb (q || existsb (Z.eqb j) marks)).
    { apply eq_iff_eq_true. rewrite negb_true_iff, orb_false_iff. split.
      - intro HX. apply existsb_exists in HX as (k & Hk & Ek). apply Z.eqb_eq in Ek; subst k.
        apply tin_foreach in Hk. apply K3 in Hk as [Hk Hnm]. apply G3 in Hk as (s & Hs).
        pose proof (ids_unique _ _ H _ _ _ _ _ Hs Et). subst. split; [congruence|].
        destruct (existsb (Z.eqb j) marks) eqn:E; auto. exfalso. apply Hnm.
        apply existsb_exists in E as (k & Hk & Ek). apply Z.eqb_eq in Ek; subst; auto.
      - intros [-> Hm]. apply existsb_exists. exists j. split; [|apply Z.eqb_refl].
        apply tin_foreach. apply K3. split; [apply G3; eauto|]. intro Hin.
        assert (existsb (Z.eqb j) marks = true) by (apply existsb_exists; exists j; split; auto; apply Z.eqb_refl).
        congruence. }
    rewrite HE. destruct (q || existsb (Z.eqb j) marks); reflexivity.
  - destruct HI as (Hg0 & Hr & Hfree). unfold SIdle. cbn [gcdata maxsid id2str]. rewrite D2. cbn [with_gc maxsid].
    splits; auto; try lia. apply (i2s_dom _ _ D3); auto. intros s q Hs. cbv beta in Hs.
    destruct (M s) as [[j r]|] eqn:Es; [|discriminate]. destruct (existsb _ _); [discriminate|].
    inversion Hs; subst. apply (proj1 (i2s_dom _ _ H _ Hr) Hfree s q). auto.
Qed.

Theorem sm_run_ok ops : forall sm M, SInv sm M -> SIdle sm -> smhist_ok sm ops ->
  exists sm' outs M', sm_run sm ops = Ok (sm', outs) /\ sm_trace M ops outs M' /\ SInv sm' M' /\ SIdle sm'.
Proof.
  induction ops as [|o ops IH]; intros sm M H HI HO; cbn [sm_run smhist_ok] in *.
  - exists sm, [], M. splits; auto. constructor; auto.
  - destruct HO as [HO HR].
    assert (HS : exists sm1 out M1, sm_step sm o = Ok (sm1, out) /\ sm_spec M o out M1 /\ SInv sm1 M1 /\ SIdle sm1).
    { destruct o as [s p|i|marks]; cbn [sm_step smop_ok] in *.
      - destruct (register_ok sm M s p H HI HO) as (sm' & id & M' & E & HA & HB & HC). rewrite E. cbn [bind].
        exists sm', (SmId id), M'. auto.
      - exists sm, (SmStr (sm_get sm i)), M. splits; auto. apply get_ok; auto.
      - destruct (gc_ok sm M marks H HI HO) as (sm' & M' & E & HA & HB & HC). rewrite E. cbn [bind].
        exists sm', SmDone, M'. auto. }
    destruct HS as (sm1 & out & M1 & E & HA & HB & HC). rewrite E in *. cbn [bind].
    destruct (IH sm1 M1 HB HC HR) as (sm' & outs & M' & E2 & HT & HB' & HC'). rewrite E2. cbn [bind].
    exists sm', (out :: outs), M'. splits; auto. econstructor; eauto.
Qed.
