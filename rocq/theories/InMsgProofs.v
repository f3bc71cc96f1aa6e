From Verif Require Import Base ListLemmas Dict DictSpec PDict DictProofs PDictKeys InMsg InMsgSpec.

Section Pr.
Context {P : Type}.
Notation pget := (pget (V:=list P) uintkeyhash intkeycmp).
Notation pset := (pset (V:=list P) uintkeyhash intkeycmp).
Notation premove := (premove (V:=list P) uintkeyhash intkeycmp).
Notation pmodify := (pmodify (V:=list P) uintkeyhash intkeycmp).
Notation PWf := (PWf (V:=list P) uintkeyhash Z.eqb).

Lemma first_entry_hd (q : inq P) : first_entry q = hd_error (pentries q).
Proof. unfold pentries. induction q as [|[|e b] t IH]; cbn; auto. Qed.
Lemma set_first_modify (q : inq P) k l w : PWf q -> first_entry q = Some (k, l) ->
  set_first q w = pmodify q k (fun _ => w).
Proof.
  intros HW HF. destruct HW as (Hne & HN & HS).
  assert (HG : forall (pre q' : inq P), Forall (fun b => b = []) pre -> pre ++ q' = q -> first_entry q' = Some (k, l) ->
     set_first q' w = match upd q (pslot uintkeyhash q k) (map (fun e => if intkeycmp k (fst e) =? 0 then (fst e, w) else e) (pbucket uintkeyhash q k)) with r => skipn (length pre) r end).
  { intros pre q'. revert pre. induction q' as [|[|e b] t IH]; intros pre Hpre HE HF'.
    - discriminate.
    - cbn in HF'. cbn [set_first]. rewrite (IH (pre ++ [[]])); auto.
      + rewrite app_length. cbn [length].
        assert (HI : pslot uintkeyhash q k <> length pre).
        { intro HI. assert (HX : In (k, l) (pentries t)). { rewrite first_entry_hd in HF'. destruct (pentries t); cbn in *; [discriminate|]. left. congruence. }
          apply in_concat in HX as (b & Hb & Hin). apply In_nth_error in Hb as (j & Hj).
          specialize (HS (length pre + S j)%nat b). rewrite <- HE in HS. rewrite nth_error_app2 in HS by lia.
          replace (length pre + S j - length pre)%nat with (S j) in HS by lia. cbn in HS. specialize (HS Hj).
          rewrite Forall_forall in HS. specialize (HS _ Hin). rewrite HE in HS. cbn [fst] in HS. lia. }
        set (v := map _ _). assert (HL : nth_error (upd q (pslot uintkeyhash q k) v) (length pre) = Some []).
        { rewrite nth_error_upd_other by auto. rewrite <- HE, nth_error_app2, Nat.sub_diag by lia. reflexivity. }
        rewrite (skipn_cons_nth _ _ _ HL). replace (length pre + 1)%nat with (S (length pre)) by lia. reflexivity.
      + apply Forall_app; auto.
      + rewrite <- app_assoc. cbn. auto.
    - cbn in HF'. injection HF' as ->.
      assert (HI : nth_error q (length pre) = Some (((k, l) :: b))).
      { rewrite <- HE, nth_error_app2, Nat.sub_diag by lia. reflexivity. }
      pose proof (HS _ _ HI) as HB. pose proof (Forall_inv HB) as Hk. cbn [fst] in Hk. rewrite Hk.
      unfold pbucket. rewrite Hk. rewrite (nth_error_nth q (length pre) [] HI).
      rewrite upd_firstn_skipn by (rewrite <- HE, app_length; cbn; lia).
      replace (firstn (length pre) q) with pre by (rewrite <- HE, firstn_len_app; auto).
      rewrite skipn_len_app. cbn [set_first fst map].
      assert (HK : intkeycmp k k =? 0 = true) by (unfold intkeycmp; destruct (k <? k) eqn:?, (k >? k) eqn:?; lia).
      rewrite HK. cbn [fst]. f_equal.
      + f_equal. rewrite <- (map_id b) at 1. apply map_ext_in.
        (* other entries of the bucket have other keys *)
        intros e He. assert (HNe : intkeycmp k (fst e) =? 0 = false).
        { assert (HX : exists u v, pentries q = u ++ (k, l) :: v /\ In e v).
          { exists [], (b ++ concat t). split; [|apply in_app_iff; auto].
            unfold pentries. rewrite <- HE, concat_app. cbn [concat].
            replace (concat pre) with (@nil (Z * list P)); [reflexivity|].
            clear -Hpre. induction Hpre; cbn; auto. subst. auto. }
          destruct HX as (u & v & HX & Hv). rewrite HX in HN.
          assert (Z.eqb k (fst e) = false).
          { clear -HN Hv. induction u as [|x u IH]; cbn in HN; [|apply IH; apply HN].
            destruct HN as [HN _]. apply HN; auto. }
          unfold intkeycmp. destruct (k <? fst e) eqn:?, (k >? fst e) eqn:?; lia. }
        rewrite HNe. reflexivity.
      + rewrite <- HE. replace (S (length pre)) with (length (pre ++ [(k, l) :: b])) by (rewrite app_length; cbn; lia).
        replace (pre ++ ((k, l) :: b) :: t) with ((pre ++ [(k, l) :: b]) ++ t) by (rewrite <- app_assoc; reflexivity).
        rewrite skipn_len_app. reflexivity. }
  rewrite (HG [] q) by auto. reflexivity.
Qed.

(** The arrays hold, per robot, the pending messages in order of arrival. *)
Definition of_robot (r : Z) (pend : list (Z * P)) : list P := map snd (filter (fun e => fst e =? r) pend).
Definition inv (q : inq P) (pend : list (Z * P)) : Prop :=
  PWf q /\ forall r, pget q r = match of_robot r pend with [] => None | l => Some l end.

Lemma of_robot_app r a b : of_robot r (a ++ b) = of_robot r a ++ of_robot r b.
Proof. unfold of_robot. rewrite filter_app, map_app. reflexivity. Qed.
Lemma of_robot_one r r' p : of_robot r [(r', p)] = if r' =? r then [p] else [].
Proof. unfold of_robot. cbn. destruct (r' =? r); reflexivity. Qed.

Lemma inv_new : inv inq_new [].
Proof. split; [apply (wf_new _ _ _ good_u); lia|]. intro r. apply (get_new _ _ _ good_u). lia. Qed.

Lemma inv_append q pend r p : inv q pend -> inv (inq_append q r p) (pend ++ [(r, p)]).
Proof.
  intros (HW & HG). unfold inq_append.
  set (q1 := match pget q r with Some _ => q | None => _ end).
  assert (H1 : PWf q1 /\ forall r', pget q1 r' = if r =? r' then Some (of_robot r' pend) else pget q r').
  { unfold q1. rewrite HG. destruct (of_robot r pend) as [|x l] eqn:E.
    - split; [apply (wf_set _ _ _ good_u); auto|]. intro r'. rewrite (get_set _ _ _ good_u) by auto.
      destruct (r =? r') eqn:Er; auto. assert (r = r') by lia. subst r'. rewrite E. auto.
    - split; auto. intro r'. destruct (r =? r') eqn:Er; auto. assert (r = r') by lia. subst r'. rewrite HG, E. auto. }
  destruct H1 as [HW1 HG1]. split; [apply (wf_modify _ _ _ good_u); auto|].
  intro r'. rewrite (get_modify _ _ _ good_u), HG1 by auto. rewrite of_robot_app, of_robot_one.
  destruct (r =? r') eqn:Er; cbn.
  - destruct (of_robot r' pend ++ [p]) eqn:E2; auto. destruct (of_robot r' pend); discriminate.
  - rewrite app_nil_r. apply HG.
Qed.

Lemma of_robot_last r pend l p : of_robot r pend = l ++ [p] ->
  exists l1 l2, pend = l1 ++ (r, p) :: l2 /\ (forall p', ~ In (r, p') l2) /\ of_robot r (l1 ++ l2) = l.
Proof.
  induction pend as [|[r' p'] pend IH] using rev_ind; intro H.
  - destruct l; discriminate.
  - rewrite of_robot_app, of_robot_one in H. destruct (r' =? r) eqn:E.
    + apply app_inj_tail in H as [H1 H2]. subst. assert (r' = r) by lia. subst r'. exists pend, []. splits; auto.
      rewrite app_nil_r. auto.
    + rewrite app_nil_r in H. destruct (IH H) as (l1 & l2 & -> & Hn & Hl). exists l1, (l2 ++ [(r', p')]). splits.
      * rewrite <- app_assoc. reflexivity.
      * intros x Hx. apply in_app_or in Hx as [Hx|[Hx|[]]]; [eapply Hn; eauto|]. inversion Hx; subst. lia.
      * rewrite app_assoc, of_robot_app, of_robot_one, E, app_nil_r. auto.
Qed.

Lemma inv_extract q pend : inv q pend ->
  (pend = [] /\ inq_extract q = Ok (None, q)) \/
  (exists l1 r p l2 q', pend = l1 ++ (r, p) :: l2 /\ (forall p', ~ In (r, p') l2) /\
     inq_extract q = Ok (Some (r, p), q') /\ inv q' (l1 ++ l2)).
Proof.
  intros (HW & HG). unfold inq_extract, inq_isempty. destruct (psize q =? 0) eqn:Ez.
  - left. split; auto. destruct pend as [|[r p] pend]; auto. exfalso.
    assert (HE : pentries q = []). { unfold psize in Ez. destruct (pentries q); auto. rewrite zlen_cons in Ez. pose proof (zlen_nonneg l). lia. }
    specialize (HG r). unfold of_robot in HG. cbn in HG. rewrite Z.eqb_refl in HG. cbn in HG.
    apply (get_in _ _ _ good_u) in HG as (k & Hin & _); auto. rewrite HE in Hin. destruct Hin.
  - right. rewrite first_entry_hd. destruct (pentries q) as [|[r l] ent] eqn:HE.
    + unfold psize in Ez. rewrite HE in Ez. discriminate.
    + cbn [hd_error].
      assert (Hg : pget q r = Some l). { apply (get_in _ _ _ good_u); auto. exists r. rewrite HE. split; [left; auto|apply Z.eqb_refl]. }
      rewrite HG in Hg. destruct (rev l) as [|p rr] eqn:El.
      { assert (l = []) by (rewrite <- (rev_involutive l), El; auto). subst. destruct (of_robot r pend); discriminate. }
      assert (Hl : l = rev rr ++ [p]) by (rewrite <- (rev_involutive l), El; auto).
      assert (Ho : of_robot r pend = rev rr ++ [p]). { rewrite <- Hl. destruct (of_robot r pend); congruence. }
      destruct (of_robot_last _ _ _ _ Ho) as (l1 & l2 & Hp & Hn & Hl2).
      exists l1, r, p, l2. eexists. splits; eauto.
      assert (HF : first_entry q = Some (r, l)) by (rewrite first_entry_hd, HE; auto).
      rewrite (set_first_modify q r l (rev rr) HW HF).
      assert (HO : forall r', r <> r' -> of_robot r' (l1 ++ l2) = of_robot r' pend).
      { intros r' Hr. rewrite Hp, !of_robot_app. f_equal. unfold of_robot. cbn. destruct (r =? r') eqn:E2; auto. lia. }
      destruct rr as [|x rr].
      * split; [apply (wf_remove _ _ _ good_u), (wf_modify _ _ _ good_u); auto|].
        intro r'. rewrite (get_remove _ _ _ good_u) by (apply (wf_modify _ _ _ good_u); auto).
        destruct (r =? r') eqn:E2.
        -- assert (r = r') by lia. subst r'. rewrite Hl2. reflexivity.
        -- rewrite (get_modify _ _ _ good_u), E2, HG, HO by (auto; lia). reflexivity.
      * split; [apply (wf_modify _ _ _ good_u); auto|].
        intro r'. rewrite (get_modify _ _ _ good_u) by auto. destruct (r =? r') eqn:E2.
        -- assert (r = r') by lia. subst r'. rewrite Hl2, HG, Ho. cbn [rev].
           destruct (rev rr ++ [x]) eqn:E3; [destruct (rev rr); discriminate|reflexivity].
        -- rewrite HG, HO by lia. reflexivity.
Qed.

Lemma run_delivers ops : forall q pend, inv q pend ->
  exists q' outs pend', inq_run q ops = Ok (q', outs) /\ delivers pend ops outs pend' /\ inv q' pend'.
Proof.
  induction ops as [|[r p|] ops IH]; intros q pend HI; cbn [inq_run].
  - exists q, [], pend. splits; auto. constructor.
  - destruct (IH _ _ (inv_append q pend r p HI)) as (q' & outs & pend' & HR & HD & HI').
    exists q', outs, pend'. splits; auto. constructor; auto.
  - destruct (inv_extract q pend HI) as [(-> & ->)|(l1 & r & p & l2 & q1 & -> & Hn & -> & HI1)]; cbn [bind].
    + destruct (IH _ _ HI) as (q' & outs & pend' & -> & HD & HI'). exists q', (None :: outs), pend'. splits; auto. constructor; auto.
    + destruct (IH _ _ HI1) as (q' & outs & pend' & -> & HD & HI'). exists q', (Some (r, p) :: outs), pend'. splits; auto. constructor; auto.
Qed.

Lemma delivers_perm (pend : list (Z * P)) ops outs pend' : delivers pend ops outs pend' ->
  Permutation (pend ++ appended ops) (handed outs ++ pend').
Proof.
  induction 1; cbn [appended handed].
  - rewrite app_nil_r. cbn. auto.
  - rewrite <- app_assoc in IHdelivers. exact IHdelivers.
  - exact IHdelivers.
  - rewrite <- app_assoc. cbn. etransitivity; [symmetry; apply Permutation_middle|]. constructor. rewrite app_assoc. exact IHdelivers.
Qed.
Lemma delivers_drain n : forall (pend : list (Z * P)) outs pend', delivers pend (repeat IExtract n) outs pend' ->
  (length pend <= n)%nat -> pend' = [].
Proof.
  induction n as [|n IH]; intros pend outs pend' HD Hn; cbn in HD; inversion HD; subst; auto.
  - destruct pend'; [auto|cbn in Hn; lia].
  - eapply IH; eauto. cbn. lia.
  - eapply IH; eauto. rewrite app_length in *. cbn in Hn. lia.
Qed.
End Pr.
