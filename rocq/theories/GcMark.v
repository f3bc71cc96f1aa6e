(** The collector keeps what can be reached. *)
From Verif Require Import Base ListLemmas Float Dict PDict DictProofs Strman StrmanSpec StrmanProofs Obj Instr Vm VmSpec GcSpec Gc GcProofs.
Local Open Scope Z_scope. Local Open Scope list_scope.

(** ** The rounds reach everything *)
Lemma mark_at_length l : forall m i, length (mark_at l i m) = length m.
Proof. induction m; intro i; cbn; auto. Qed.
Lemma mark_at_nth l : forall m i j, nth_error (mark_at l i m) j = option_map (fun b => b || existsb (Z.eqb (i + Z.of_nat j)) l) (nth_error m j).
Proof.
  induction m as [|b m IH]; intros i [|j]; cbn [mark_at nth_error option_map]; auto.
  - rewrite Z.add_0_r. reflexivity.
  - rewrite IH. replace (i + 1 + Z.of_nat j) with (i + Z.of_nat (S j)) by lia. reflexivity.
Qed.
Definition cnt (m : list bool) : nat := length (filter (fun b : bool => b) m).
Lemma cnt_le m : (cnt m <= length m)%nat.
Proof. unfold cnt. induction m as [|[] m IH]; cbn; lia. Qed.
Lemma mark_at_cnt l : forall m i, mark_at l i m = m \/ (cnt m < cnt (mark_at l i m))%nat.
Proof.
  assert (HM : forall m i, (cnt m <= cnt (mark_at l i m))%nat).
  { unfold cnt. induction m as [|[] m IH]; intro i; cbn; auto; specialize (IH (i + 1)); try lia. destruct (existsb _ _); cbn; lia. }
  induction m as [|b m IH]; intro i; cbn [mark_at]; auto. destruct (IH (i + 1)) as [H|H].
  - rewrite H. destruct b; cbn [orb]; auto. destruct (existsb _ _); auto.
  - right. pose proof (HM m (i + 1)). unfold cnt in *. destruct b; cbn [orb filter length]; [lia|]. destruct (existsb _ _); cbn [filter length]; lia.
Qed.
Lemma rounds_fix h : forall n m, mark_round h m = m -> mark_rounds n h m = m.
Proof. induction n; intros m H; cbn [mark_rounds]; auto. rewrite H. auto. Qed.
Lemma rounds_length h : forall n m, length (mark_rounds n h m) = length m.
Proof. induction n; intro m; cbn [mark_rounds]; auto. rewrite IHn. apply mark_at_length. Qed.
Lemma rounds_closed h : forall n m, mark_round h (mark_rounds n h m) = mark_rounds n h m \/ (cnt m + n <= cnt (mark_rounds n h m))%nat.
Proof.
  induction n; intro m; cbn [mark_rounds]; [right; lia|]. destruct (mark_at_cnt (flat_map tabs_of (inside h m)) m 0) as [H|H]; fold (mark_round h m) in H.
  - left. rewrite !H. rewrite rounds_fix; auto.
  - destruct (IHn (mark_round h m)) as [A|A]; [auto|right; lia].
Qed.
Lemma full_closed l m : cnt m = length m -> forall i, mark_at l i m = m.
Proof. unfold cnt. induction m as [|[] m IH]; intros H i; cbn in *; auto; [rewrite IH by lia; reflexivity|pose proof (cnt_le m); unfold cnt in *; lia]. Qed.
Lemma marks_length h R : length (marks h R) = length h.
Proof. unfold marks. rewrite rounds_length, mark_at_length, repeat_length. reflexivity. Qed.
Lemma marks_closed h R : mark_round h (marks h R) = marks h R.
Proof.
  unfold marks. destruct (rounds_closed h (length h) (mark_at (flat_map tabs_of R) 0 (repeat false (length h)))) as [H|H]; auto.
  fold (marks h R) in *. apply full_closed. pose proof (cnt_le (marks h R)). rewrite marks_length in *. lia.
Qed.
Definition marked (m : list bool) (a : Z) : Prop := 0 <= a -> (Z.to_nat a < length m)%nat -> nth_error m (Z.to_nat a) = Some true.
Lemma rounds_more h : forall n m j, nth_error m j = Some true -> nth_error (mark_rounds n h m) j = Some true.
Proof. induction n; intros m j H; cbn [mark_rounds]; auto. apply IHn. unfold mark_round. rewrite mark_at_nth, H. reflexivity. Qed.
Lemma mark_at_in l m a : In a l -> marked (mark_at l 0 m) a.
Proof.
  intros H H0 HL. rewrite mark_at_length in HL. rewrite mark_at_nth. destruct (nth_error m (Z.to_nat a)) as [b|] eqn:E; [|apply nth_error_None in E; lia].
  cbn [option_map]. replace (existsb (Z.eqb (0 + Z.of_nat (Z.to_nat a))) l) with true; [rewrite orb_true_r; reflexivity|].
  symmetry. apply existsb_exists. exists a. split; auto. lia.
Qed.
Lemma root_marked h R o a : In o R -> In a (tabs_of o) -> marked (marks h R) a.
Proof.
  intros H1 H2 H0 HL. unfold marks. apply rounds_more. apply mark_at_in; auto.
  - apply in_flat_map. eauto.
  - rewrite marks_length in HL. rewrite mark_at_length, repeat_length. exact HL.
Qed.
Lemma inside_in h m a t e o : nth_error m (Z.to_nat a) = Some true -> table_of h a = Some t -> In e (pentries t) -> In o (entry_objs e) -> In o (inside h m).
Proof.
  intros H1 H2 H3 H4. unfold table_of in H2. destruct (0 <=? a); [|discriminate]. unfold inside. apply in_flat_map. exists (t, true). split.
  - revert H1 H2. generalize (Z.to_nat a). clear. revert m. induction h as [|x h IH]; intros m n H1 H2; [destruct n; discriminate|]. destruct m as [|b m]; [destruct n; discriminate|].
    destruct n; cbn in *; [inversion H1; inversion H2; subst; auto|right; eauto].
  - apply in_flat_map. eauto.
Qed.
Lemma inside_marked h R o a : In o (inside h (marks h R)) -> In a (tabs_of o) -> marked (marks h R) a.
Proof. intros H1 H2. rewrite <- marks_closed. unfold mark_round. apply mark_at_in. apply in_flat_map. eauto. Qed.
Lemma tab_marked h R a t : marked (marks h R) a -> table_of h a = Some t -> nth_error (marks h R) (Z.to_nat a) = Some true.
Proof.
  intros H HT. unfold table_of in HT. destruct (0 <=? a) eqn:E; [|discriminate]. apply H; [lia|]. rewrite marks_length. apply nth_error_Some. congruence.
Qed.
Theorem reach_marked h R o : reach h R o -> (forall a, In a (tabs_of o) -> marked (marks h R) a) /\ (forall i, In i (strs_of o) -> In i (flat_map strs_of (R ++ inside h (marks h R)))).
Proof.
  apply (reach_in (fun o => (forall a, In a (tabs_of o) -> marked (marks h R) a) /\ (forall i, In i (strs_of o) -> In i (flat_map strs_of (R ++ inside h (marks h R)))))).
  - intros x Hx. split; [intros a Ha; eapply root_marked; eauto|]. intros i Hi. apply in_flat_map. exists x. split; auto. apply in_or_app. auto.
  - intros n r act x [H1 H2] Hx. split; intros y Hy; [apply H1|apply H2]; cbn; apply in_flat_map; eauto.
  - intros a t k x [H1 _] HT HI. assert (HM : nth_error (marks h R) (Z.to_nat a) = Some true) by (eapply tab_marked; [apply H1; left; reflexivity|exact HT]).
    assert (HIn : forall o, In o (entry_objs (k, x)) -> In o (inside h (marks h R))) by (intros; eapply inside_in; eauto).
    assert (HA : forall o, In o (entry_objs (k, x)) -> (forall a, In a (tabs_of o) -> marked (marks h R) a) /\ (forall i, In i (strs_of o) -> In i (flat_map strs_of (R ++ inside h (marks h R))))).
    { intros y Hy. apply HIn in Hy. split; [intros b Hb; eapply inside_marked; eauto|]. intros i Hi. apply in_flat_map. exists y. split; auto. apply in_or_app. auto. }
    split; apply HA; cbn; auto.
Qed.
Lemma sweep_length junk h m : length m = length h -> length (sweep junk h m) = length h.
Proof. intro H. unfold sweep. rewrite map_length, combine_length. lia. Qed.
Lemma sweep_at junk h m a t : length m = length h -> table_of h a = Some t -> nth_error m (Z.to_nat a) = Some true -> table_of (sweep junk h m) a = Some t.
Proof.
  unfold table_of. destruct (0 <=? a); [|discriminate]. generalize (Z.to_nat a). intros n HL H1 H2. unfold sweep. rewrite nth_error_map.
  revert m n HL H1 H2. induction h as [|x h IH]; intros [|b m] [|n] HL H1 H2; cbn in *; try discriminate; auto. inversion H1; inversion H2; subst. reflexivity.
Qed.
Lemma sweep_none junk h m a : length m = length h -> table_of h a = None -> table_of (sweep junk h m) a = None.
Proof.
  intros HL H. unfold table_of in *. destruct (0 <=? a); auto. apply nth_error_None. rewrite sweep_length by auto. apply nth_error_None. exact H.
Qed.

(** And nothing else. *)
Fixpoint tabs_reach h R (o : obj) : reach h R o -> forall a, In a (tabs_of o) -> reach h R (OTab a).
Proof.
  intro H. destruct o as [| | | |b|n r act|]; cbn [tabs_of]; intros a Ha; try (destruct Ha; fail).
  - destruct Ha as [->|[]]. exact H.
  - assert (HA : forall x, In x act -> reach h R x) by (intros x Hx; eapply reach_clos; eauto). clear H. induction act as [|x act IH]; [destruct Ha|]. cbn [flat_map] in Ha.
    apply in_app_or in Ha as [Ha|Ha]; [apply (tabs_reach h R x); auto; apply HA; left; reflexivity|apply IH; auto; intros y Hy; apply HA; right; exact Hy].
Qed.
Fixpoint strs_reach h R (o : obj) : reach h R o -> forall i, In i (strs_of o) -> exists s, reach h R (OStr i s).
Proof.
  intro H. destruct o as [| | |j s|b|n r act|]; cbn [strs_of]; intros i Hi; try (destruct Hi; fail).
  - destruct Hi as [->|[]]. exists s. exact H.
  - assert (HA : forall x, In x act -> reach h R x) by (intros x Hx; eapply reach_clos; eauto). clear H. induction act as [|x act IH]; [destruct Hi|]. cbn [flat_map] in Hi.
    apply in_app_or in Hi as [Hi|Hi]; [apply (strs_reach h R x); auto; apply HA; left; reflexivity|apply IH; auto; intros y Hy; apply HA; right; exact Hy].
Qed.
Definition justified h R (m : list bool) : Prop := forall a, 0 <= a -> nth_error m (Z.to_nat a) = Some true -> reach h R (OTab a).
Lemma mark_at_just h R l m : justified h R m -> (forall a, In a l -> reach h R (OTab a)) -> justified h R (mark_at l 0 m).
Proof.
  intros HM HL a H0 Ha. rewrite mark_at_nth in Ha. destruct (nth_error m (Z.to_nat a)) as [b|] eqn:E; [|discriminate]. cbn [option_map] in Ha. destruct b; [apply HM; auto|]. cbn [orb] in Ha.
  inversion Ha as [HE]. apply existsb_exists in HE as (x & Hx & Ex). replace a with x by lia. auto.
Qed.
Lemma inside_reach h R m o : justified h R m -> In o (inside h m) -> reach h R o.
Proof.
  intros HM H. unfold inside in H. apply in_flat_map in H as ((t & b) & Ht & Ho). cbn [fst snd] in Ho. destruct b; [|destruct Ho]. apply in_flat_map in Ho as ((k & x) & He & Ho).
  apply In_nth_error in Ht as (n & Hn).
  assert (HN : nth_error h n = Some t /\ nth_error m n = Some true).
  { clear -Hn. revert m n Hn. induction h as [|y h IH]; intros [|c m] [|n] Hn; cbn in *; try discriminate; auto. inversion Hn; auto. }
  destruct HN as [HN1 HN2]. assert (HT : reach h R (OTab (Z.of_nat n))) by (apply HM; [lia|rewrite Nat2Z.id; exact HN2]).
  assert (HO : table_of h (Z.of_nat n) = Some t) by (unfold table_of; replace (0 <=? Z.of_nat n) with true by lia; rewrite Nat2Z.id; exact HN1).
  cbn in Ho. destruct Ho as [<-|[<-|[]]]; [eapply reach_key|eapply reach_val]; eauto.
Qed.
Lemma marks_just h R : justified h R (marks h R).
Proof.
  unfold marks. assert (HR : forall n m, justified h R m -> justified h R (mark_rounds n h m)).
  { induction n; intros m Hm; cbn [mark_rounds]; auto. apply IHn. apply mark_at_just; auto. intros a Ha. apply in_flat_map in Ha as (o & Ho & Ha). eapply tabs_reach; eauto. eapply inside_reach; eauto. }
  apply HR. apply mark_at_just.
  - intros a _ Ha. apply nth_error_In, repeat_spec in Ha. discriminate.
  - intros a Ha. apply in_flat_map in Ha as (o & Ho & Ha). eapply tabs_reach; eauto. apply reach_root, Ho.
Qed.
Lemma sweep_junk junk h m a t : length m = length h -> table_of h a = Some t -> nth_error m (Z.to_nat a) <> Some true -> table_of (sweep junk h m) a = Some (junk t).
Proof.
  unfold table_of. destruct (0 <=? a); [|discriminate]. generalize (Z.to_nat a). intros n HL H1 H2. unfold sweep. rewrite nth_error_map.
  revert m n HL H1 H2. induction h as [|x h IH]; intros [|b m] [|n] HL H1 H2; cbn in *; try discriminate; auto. inversion H1; subst. destruct b; [congruence|reflexivity].
Qed.

(** ** Strings *)
Lemma sm_run_app ops : forall sm ops', sm_run sm (ops ++ ops') = ('(sm1, x) <- sm_run sm ops ;; '(sm2, y) <- sm_run sm1 ops' ;; Ok (sm2, x ++ y)).
Proof.
  induction ops as [|o ops IH]; intros sm ops'; cbn [app sm_run bind].
  - destruct (sm_run sm ops') as [[? ?]| | |]; reflexivity.
  - destruct (sm_step sm o) as [[sm1 x]| | |]; cbn [bind]; auto. rewrite IH. destruct (sm_run sm1 ops) as [[sm2 y]| | |]; cbn [bind]; auto. destruct (sm_run sm2 ops') as [[? ?]| | |]; reflexivity.
Qed.
Lemma smhist_app ops : forall sm ops' sm1 x, smhist_ok sm ops -> sm_run sm ops = Ok (sm1, x) -> smhist_ok sm1 ops' -> smhist_ok sm (ops ++ ops').
Proof.
  induction ops as [|o ops IH]; intros sm ops' sm1 x H HR H'; cbn [app sm_run smhist_ok] in *.
  - inversion HR; subst. exact H'.
  - destruct H as [H1 H2]. split; auto. destruct (sm_step sm o) as [[sm2 y]| | |]; auto. cbn [bind] in HR. destruct (sm_run sm2 ops) as [[sm3 z]| | |] eqn:E; try discriminate. cbn [bind] in HR. inversion HR; subst. eapply IH; eauto.
Qed.
Lemma i2s_wrap (d : pdict Z (str * bool)) i : i2s_get d i = i2s_get d (wrap16 i).
Proof.
  assert (E : int16_of (wrap16 i) = int16_of i) by (unfold int16_of, wrap16; rewrite Z.mod_mod by lia; reflexivity).
  assert (HC : forall l, find_first int16keycmp i l = find_first (V := str * bool) int16keycmp (wrap16 i) l).
  { induction l as [|e l IH]; cbn [find_first]; auto. replace (int16keycmp (wrap16 i) (fst e)) with (int16keycmp i (fst e)) by (unfold int16keycmp; rewrite E; reflexivity). rewrite IH. reflexivity. }
  unfold i2s_get, pget, pbucket, pslot. rewrite HC. replace (int16keyhash (wrap16 i)) with (int16keyhash i); [reflexivity|]. unfold int16keyhash, wrap16. rewrite Z.mod_mod by lia. reflexivity.
Qed.
Lemma gc_strings s marks : strings_ok s -> exists s', sm_gc s (map wrap16 marks) = Ok s' /\ strings_ok s' /\
  (forall i, In i marks \/ kept_string s i -> string_of s' i = string_of s i) /\
  (forall i, ~ In (wrap16 i) (map wrap16 marks) -> ~ kept_string s i -> string_of s' i = None).
Proof.
  intros (ops & outs & HO & HR). destruct SInv_new as [H1 H2]. destruct (sm_run_ok ops sm_new _ H1 H2 HO) as (sm & outs' & M & E & HT & HI & HD).
  rewrite HR in E. inversion E; subst sm outs'. clear E.
  assert (HF : Forall (fun i => 0 <= i < 65536) (map wrap16 marks)) by (apply Forall_forall; intros x Hx; apply in_map_iff in Hx as (y & <- & _); unfold wrap16; apply Z.mod_pos_bound; lia).
  destruct (gc_ok s M _ HI HD HF) as (s' & M' & EG & [_ HS] & HI' & HD'). exists s'. split; [exact EG|]. split.
  - exists (ops ++ [SmGc (map wrap16 marks)]), (outs ++ [SmDone]). split.
    + eapply smhist_app; eauto. cbn [smhist_ok smop_ok]. split; auto. destruct (sm_step _ _) as [[? ?]| | |]; exact I.
    + rewrite sm_run_app, HR. cbn [bind sm_run sm_step]. rewrite EG. reflexivity.
  - split; [|intros i Hn Hk; unfold kept_string, string_of in *; rewrite (i2s_wrap _ i); assert (HW : 0 <= wrap16 i < 65536) by (unfold wrap16; apply Z.mod_pos_bound; lia);
      apply (i2s_dom _ _ HI'); auto; intros t q Ht; rewrite HS in Ht; destruct (M t) as [[j r]|] eqn:EM; [|discriminate]; destruct (r || _) eqn:EB; inversion Ht; subst;
      apply orb_prop in EB as [->|EB]; [apply Hk; exists t; rewrite i2s_wrap; apply (si_i2s _ _ HI); auto
        |apply Hn; apply existsb_exists in EB as (x & Hx & Ex); apply Z.eqb_eq in Ex; subst x; exact Hx]].
    intros i Hi. unfold string_of, kept_string in *. rewrite (i2s_wrap _ i), (i2s_wrap (id2str s) i). assert (HW : 0 <= wrap16 i < 65536) by (unfold wrap16; apply Z.mod_pos_bound; lia).
    assert (HX : forall t q, M t = Some (wrap16 i, q) -> M' t = Some (wrap16 i, q)).
    { intros t q Ht. rewrite HS, Ht. destruct Hi as [Hi|[u Hu]].
      - replace (existsb _ _) with true; [rewrite orb_true_r; reflexivity|]. symmetry. apply existsb_exists. exists (wrap16 i). split; [apply in_map; exact Hi|apply Z.eqb_refl].
      - unfold string_of in Hu. rewrite i2s_wrap in Hu. apply (si_i2s _ _ HI) in Hu; auto. pose proof (ids_unique _ _ HI _ _ _ _ _ Hu Ht). subst. rewrite Ht in Hu. inversion Hu; subst. reflexivity. }
    destruct (i2s_get (id2str s) (wrap16 i)) as [[t q]|] eqn:E.
    + apply (si_i2s _ _ HI) in E; auto. apply (si_i2s _ _ HI'); auto.
    + apply (i2s_dom _ _ HI') ; auto. intros t q Ht. rewrite HS in Ht. destruct (M t) as [[j r]|] eqn:EM; [|discriminate]. destruct (_ || _); inversion Ht; subst.
      apply (proj1 (i2s_dom _ _ HI _ HW) E t q). exact EM.
Qed.

Section P.
Context {X : Type}.
Implicit Types v : vm X.
Variable xroots : X -> list obj.
Theorem gc_keeps due junk v : slots_set v -> strings_ok (v_str v) -> exists g, vm_gc xroots due junk v = Ok g /\ keeps xroots v g.
Proof.
  intros HS HK. unfold vm_gc. destruct due; cbn [negb]; [|exists v; split; [reflexivity|apply keeps_refl]].
  replace (existsb unset (v_lsymts v)) with false.
  2:{ symmetry. destruct (existsb unset _) eqn:E; auto. apply existsb_exists in E as (f & Hf & E). apply existsb_exists in E as ([x|] & Hx & E); [discriminate|]. destruct (HS f Hf Hx). }
  cbv zeta. destruct (gc_strings (v_str v) (flat_map strs_of (roots xroots v ++ inside (v_heap v) (marks (v_heap v) (roots xroots v)))) HK) as (s' & E & HO & HI & _). rewrite E. cbn [bind].
  eexists. split; [reflexivity|]. split; cbn [v_heap v_str set_str set_heap].
  - reflexivity.
  - apply sweep_length, marks_length.
  - intros a Ha. apply reach_marked in Ha as [Ha _]. specialize (Ha a (or_introl eq_refl)). destruct (table_of (v_heap v) a) as [t|] eqn:ET.
    + apply sweep_at; auto using marks_length. eapply tab_marked; eauto.
    + apply sweep_none; auto using marks_length.
  - intros i s Hs. apply reach_marked in Hs as [_ Hs]. apply HI. left. apply Hs. left. reflexivity.
  - intros i Hi. apply HI. auto.
  - intros _. exact HO.
Qed.
Theorem gc_exact junk v g : strings_ok (v_str v) -> vm_gc xroots true junk v = Ok g ->
  (forall a t, table_of (v_heap v) a = Some t -> ~ reached xroots v (OTab a) -> table_of (v_heap g) a = Some (junk t)) /\
  (forall i, ~ kept_string (v_str v) i -> (forall j s, reached xroots v (OStr j s) -> wrap16 j <> wrap16 i) -> string_of (v_str g) i = None).
Proof.
  intros HK H. unfold vm_gc in H. cbn [negb] in H. destruct (existsb unset _); [discriminate|]. cbv zeta in H.
  destruct (gc_strings (v_str v) (flat_map strs_of (roots xroots v ++ inside (v_heap v) (marks (v_heap v) (roots xroots v)))) HK) as (s' & E & HO & _ & HI). rewrite E in H. cbn [bind] in H.
  inversion H; subst g; clear H. cbn [v_heap v_str set_str set_heap]. split.
  - intros a t HT HR. apply sweep_junk; auto using marks_length. intro HM. apply HR. apply marks_just; auto. unfold table_of in HT. destruct (0 <=? a) eqn:E0; [lia|discriminate].
  - intros i Hk Hn. apply HI; auto. intro Hin. apply in_map_iff in Hin as (j & Hj & Hin). apply in_flat_map in Hin as (o & Ho & Hin).
    assert (HR : reached xroots v o).
    { apply in_app_or in Ho as [Ho|Ho]; [apply reach_root, Ho|]. eapply inside_reach; eauto. apply marks_just. }
    destruct (strs_reach _ _ _ HR _ Hin) as (s & Hs). apply (Hn j s); auto.
Qed.
End P.
