(** Behaviour of the string manager when the ids are nearly exhausted. *)
From Verif Require Import Base ListLemmas Dict DictSpec PDict DictProofs PDictKeys BSet BSetProofs
  Strman StrmanSpec StrmanProofs.

Lemma nat_of z : 0 <= z -> exists n, Z.of_nat n = z.
Proof. exists (Z.to_nat z). lia. Qed.
Lemma sm_fuel_val : Z.of_nat sm_fuel = 65537.
Proof. unfold sm_fuel. rewrite Z2Nat.id; [reflexivity|]. intro H; discriminate H. Qed.
Opaque sm_fuel.

Definition nth_str (k : nat) : str := repeat 97 k.
Definition fill_ops (n : nat) : list smop := map (fun k => SmReg (nth_str k) false) (seq 0 n).
Definition fillM (n : nat) : livemap := fun t =>
  if str_dec t (nth_str (length t)) then
    if (length t <? n)%nat then Some (Z.of_nat (length t), false) else None
  else None.

Lemma nth_str_len k : length (nth_str k) = k.
Proof. apply repeat_length. Qed.

Lemma fillM_nth n k : fillM n (nth_str k) = if (k <? n)%nat then Some (Z.of_nat k, false) else None.
Proof. unfold fillM. rewrite nth_str_len. destruct (str_dec _ _); congruence. Qed.

Lemma fillM_some n t i q : fillM n t = Some (i, q) ->
  exists k, t = nth_str k /\ i = Z.of_nat k /\ q = false /\ (k < n)%nat.
Proof.
  unfold fillM. destruct (str_dec _ _) as [E|]; [|discriminate].
  destruct (length t <? n)%nat eqn:El; [|discriminate]. intro H; inversion H; subst.
  exists (length t). splits; auto. apply Nat.ltb_lt; auto.
Qed.

Lemma fillM_S n t : fillM (S n) t = lm_set (fillM n) (nth_str n) (Z.of_nat n, false) t.
Proof.
  unfold lm_set. destruct (str_dec t (nth_str n)) as [->|Hn].
  - rewrite fillM_nth. destruct (n <? S n)%nat eqn:E; auto. apply Nat.ltb_ge in E; lia.
  - unfold fillM. destruct (str_dec t _) as [E|]; auto.
    assert (length t <> n) by (intro HH; rewrite HH in E; congruence).
    destruct (length t <? S n)%nat eqn:E1, (length t <? n)%nat eqn:E2; auto;
      rewrite ?Nat.ltb_lt, ?Nat.ltb_ge in *; lia.
Qed.

Lemma sm_run_app ops1 ops2 : forall sm,
  sm_run sm (ops1 ++ ops2) =
  ('(sm1, x1) <- sm_run sm ops1 ;; '(sm2, x2) <- sm_run sm1 ops2 ;; Ok (sm2, x1 ++ x2)).
Proof.
  induction ops1 as [|o ops1 IH]; intro sm; cbn [app sm_run bind].
  - destruct (sm_run sm ops2) as [[? ?]| | |]; reflexivity.
  - destruct (sm_step sm o) as [[sm1 x]| | |]; cbn [bind]; auto. rewrite IH.
    destruct (sm_run sm1 ops1) as [[sm2 x1]| | |]; cbn [bind]; auto.
    destruct (sm_run sm2 ops2) as [[? ?]| | |]; reflexivity.
Qed.

Lemma fill_ok n : Z.of_nat n <= 65535 ->
  exists sm outs, sm_run sm_new (fill_ops n) = Ok (sm, outs) /\
    SInv sm (fillM n) /\ gcdata sm = Leaf /\ maxsid sm = Z.of_nat n.
Proof.
  induction n as [|n IH]; intro Hn.
  - exists sm_new, []. splits; auto. eapply SInv_ext; [|apply SInv_new].
    intro t. unfold fillM. destruct (str_dec _ _); auto.
  - destruct IH as (sm & outs & E & H & Hg & Hm); [lia|].
    unfold fill_ops. rewrite seq_S, map_app. fold (fill_ops n). rewrite sm_run_app, E.
    cbn [bind map sm_run sm_step Nat.add]. unfold sm_register.
    assert (Hs : fillM n (nth_str n) = None).
    { rewrite fillM_nth. destruct (n <? n)%nat eqn:El; auto. apply Nat.ltb_lt in El; lia. }
    rewrite (si_s2i _ _ H), Hs. cbn [option_map]. rewrite Hm.
    rewrite (wrap16_id (Z.of_nat n + 1)) by lia.
    destruct (Z.of_nat n + 1 =? 0) eqn:E0; [lia|].
    assert (Hfr : forall i, Z.of_nat n <= i < 65536 -> i2s_get (id2str sm) i = None).
    { intros i Hi. apply (i2s_dom _ _ H); [lia|]. intros s q HS.
      apply fillM_some in HS as (k & _ & -> & _ & Hk). lia. }
    rewrite (find_free_first _ 0 sm_fuel (Z.of_nat n + 1)).
    2:{ pose proof sm_fuel_val; lia. }
    2:{ lia. }
    2:{ intros; lia. }
    2:{ rewrite wrap16_id by lia. apply Hfr. lia. }
    cbn [bind]. eexists _, _. split; [reflexivity|]. cbn [gcdata maxsid]. splits; auto.
    + eapply SInv_ext; [intro t; apply fillM_S|]. apply SInv_add; auto; [lia|]. apply Hfr; lia.
    + rewrite wrap16_id by lia. lia.
Qed.

(** With 65536 live strings every registration of a new string loops forever. *)
Lemma register_hangs sm M : SInv sm M -> SIdle sm \/ 0 <= maxsid sm < 65536 ->
  (forall i, 0 <= i < 65536 -> exists s q, M s = Some (i, q)) ->
  forall s p fuel, M s = None -> sm_register fuel sm s p = Hang.
Proof.
  intros H Hm HA s p fuel Hs. unfold sm_register. rewrite (si_s2i _ _ H), Hs. cbn [option_map].
  rewrite find_free_all_taken; auto.
  - intros i Hi. destruct (HA i Hi) as (t & q & Ht). apply (si_i2s _ _ H) in Ht; auto. congruence.
  - destruct (_ =? 0); apply wrap16_rng.
Qed.

Lemma register_may_hang :
  exists ops sm outs, sm_run sm_new ops = Ok (sm, outs) /\
    s2i_get (str2id sm) [98] = None /\
    forall s p, s2i_get (str2id sm) s = None -> forall fuel, sm_register fuel sm s p = Hang.
Proof.
  destruct (nat_of 65535 ltac:(lia)) as (n & Hn).
  destruct (fill_ok n ltac:(lia)) as (sm & outs & E & H & Hg & Hm).
  set (M' := lm_set (fillM n) (nth_str n) (65535, false)).
  assert (Hs : fillM n (nth_str n) = None).
  { rewrite fillM_nth. destruct (n <? n)%nat eqn:El; auto. apply Nat.ltb_lt in El; lia. }
  assert (HR : exists sm' out, sm_step sm (SmReg (nth_str n) false) = Ok (sm', out) /\ SInv sm' M' /\
               0 <= maxsid sm' < 65536).
  { cbn [sm_step]. unfold sm_register. rewrite (si_s2i _ _ H), Hs. cbn [option_map]. rewrite Hm, Hn.
    change (wrap16 (65535 + 1)) with 0. change (0 =? 0) with true. cbv iota zeta.
    change (wrap16 (0 + 1)) with 1.
    assert (Hin : forall i, 0 <= i < 65535 -> i2s_get (id2str sm) i <> None).
    { intros i Hi HX. pose proof (proj1 (i2s_dom _ _ H i ltac:(lia)) HX) as HY.
      apply (HY (nth_str (Z.to_nat i)) false). rewrite fillM_nth. destruct (_ <? n)%nat eqn:El.
      - f_equal. f_equal. lia.
      - apply Nat.ltb_ge in El. lia. }
    assert (Hlast : i2s_get (id2str sm) 65535 = None).
    { apply (i2s_dom _ _ H); [lia|]. intros s q HS. apply fillM_some in HS as (k & _ & Hk & _ & Hk2). lia. }
    destruct (nat_of 65534 ltac:(lia)) as (k & Hk).
    rewrite (find_free_first _ k sm_fuel 1).
    - cbn [bind]. eexists _, _. split; [reflexivity|]. split; [|apply wrap16_rng].
      unfold M'. apply SInv_add; auto. lia.
    - pose proof sm_fuel_val; lia.
    - lia.
    - intros j Hj. rewrite wrap16_id by lia. apply Hin. lia.
    - rewrite wrap16_id by lia. replace (1 + Z.of_nat k) with 65535 by lia. exact Hlast. }
  destruct HR as (sm' & out & ER & H' & Hm').
  exists (fill_ops n ++ [SmReg (nth_str n) false]), sm'. eexists. split; [|split].
  - rewrite sm_run_app, E. cbn [bind sm_run]. rewrite ER. cbn [bind]. reflexivity.
  - rewrite (si_s2i _ _ H'). unfold M', lm_set. destruct (str_dec [98] (nth_str n)) as [HX|HX].
    + exfalso. assert (length [98] = n) by (rewrite HX; apply nth_str_len). cbn in *. lia.
    + unfold fillM. cbn [length]. destruct (str_dec _ _) as [HY|]; [discriminate HY|reflexivity].
  - intros s p Hsn fuel. apply (register_hangs sm' M'); auto.
    + intros i Hi. destruct (Z.eq_dec i 65535) as [->|Hne].
      * exists (nth_str n), false. unfold M'. apply lm_set_same.
      * exists (nth_str (Z.to_nat i)), false. unfold M'. rewrite lm_set_other.
        -- rewrite fillM_nth. destruct (_ <? n)%nat eqn:El; [do 2 f_equal; lia|].
           apply Nat.ltb_ge in El. lia.
        -- intro HX. apply (f_equal (@length _)) in HX. rewrite !nth_str_len in HX. lia.
    + rewrite (si_s2i _ _ H') in Hsn. destruct (M' s); [discriminate|auto].
Qed.

(** With 65535 live strings two live strings can share an id. *)
Lemma ids_may_collide :
  exists ops sm outs sm', sm_run sm_new ops = Ok (sm, outs) /\
    sm_run sm [SmReg [98] false; SmReg [99] false; SmReg [98] false; SmGet 65535] =
    Ok (sm', [SmId 65535; SmId 65535; SmId 65535; SmStr (Some [99])]).
Proof.
  destruct (nat_of 65535 ltac:(lia)) as (n & Hn).
  destruct (fill_ok n ltac:(lia)) as (sm & outs & E & H & Hg & Hm).
  rewrite Hn in Hm.
  set (marks := map Z.of_nat (seq 1 (n - 1))).
  assert (HI : SIdle sm).
  { unfold SIdle. rewrite Hm. splits; auto; try lia. apply (i2s_dom _ _ H); [lia|].
    intros s q HS. apply fillM_some in HS as (k & _ & Hk & _ & Hk2). lia. }
  assert (HF : Forall (fun i => 0 <= i < 65536) marks).
  { apply Forall_forall. intros i Hi. unfold marks in Hi. apply in_map_iff in Hi as (k & <- & Hk).
    apply in_seq in Hk. lia. }
  destruct (gc_ok sm _ marks H HI HF) as (sm1 & M1 & EG & HS & H1 & HI1).
  assert (Hm1 : maxsid sm1 = 65535).
  { unfold sm_gc, sm_gc_prune in EG. 
    destruct (sm_dispose_all _ _) as [smd| | |] eqn:ED; cbn [bind] in EG; try discriminate.
    inversion EG; subst. cbn [maxsid].
    assert (forall L a b, sm_dispose_all a L = Ok b -> maxsid b = maxsid a) as HD.
    { clear. induction L as [|i L IH]; intros a b; cbn [sm_dispose_all]; [intro HH; inversion HH; auto|].
      unfold sm_dispose. destruct (i2s_get _ _); cbn [bind]; [|discriminate]. intro HH. apply IH in HH. exact HH. }
    rewrite (HD _ _ _ ED). rewrite <- Hm.
    assert (forall L a, maxsid (fold_left sm_gc_mark L a) = maxsid a) as HD2.
    { clear. induction L as [|i L IH]; intro a; cbn; auto. rewrite IH. unfold sm_gc_mark.
      destruct (i2s_get _ _) as [[? []]|]; reflexivity. }
    rewrite HD2. unfold sm_gc_clear.
    assert (forall L a, maxsid (fold_left sm_unmark L a) = maxsid a) as HD3.
    { clear. induction L as [|i L IH]; intro a; cbn; auto. rewrite IH. unfold sm_unmark.
      destruct (i2s_get _ _) as [[? []]|]; reflexivity. }
    apply HD3. }
  destruct HS as [_ HM1].
  assert (HM1a : forall k, (1 <= k < n)%nat -> M1 (nth_str k) = Some (Z.of_nat k, false)).
  { intros k Hk. rewrite HM1, fillM_nth. destruct (k <? n)%nat eqn:El; [|apply Nat.ltb_ge in El; lia].
    assert (existsb (Z.eqb (Z.of_nat k)) marks = true) as ->; auto.
    apply existsb_exists. exists (Z.of_nat k). split; [|apply Z.eqb_refl]. unfold marks.
    apply in_map. apply in_seq. lia. }
  assert (HM1b : forall s i q, M1 s = Some (i, q) -> exists k, (1 <= k < n)%nat /\ s = nth_str k /\ i = Z.of_nat k).
  { intros s i q HH. rewrite HM1 in HH. destruct (fillM n s) as [[j r]|] eqn:EF; [|discriminate].
    apply fillM_some in EF as (k & -> & -> & -> & Hk). cbn [orb] in HH.
    destruct (existsb _ marks) eqn:EX; [|discriminate]. inversion HH; subst.
    apply existsb_exists in EX as (x & Hx & Hxk). apply Z.eqb_eq in Hxk. subst x. unfold marks in Hx.
    apply in_map_iff in Hx as (k' & Hk' & Hin). apply in_seq in Hin. exists k. splits; auto; try lia. }
  assert (Hnot : forall c, c <> 97 -> M1 [c] = None).
  { intros c Hc. destruct (M1 [c]) as [[i q]|] eqn:EC; auto. apply HM1b in EC as (k & Hk & HX & _).
    destruct k; [discriminate|]. cbn in HX. congruence. }
  assert (Hin : forall i, 1 <= i < 65535 -> i2s_get (id2str sm1) i <> None).
  { intros i Hi HX. pose proof (proj1 (i2s_dom _ _ H1 i ltac:(lia)) HX) as HY.
    apply (HY (nth_str (Z.to_nat i)) false). rewrite HM1a by lia. do 2 f_equal. lia. }
  assert (Hout : forall i, i = 0 \/ i = 65535 -> i2s_get (id2str sm1) i = None).
  { intros i Hi. apply (i2s_dom _ _ H1); [lia|]. intros s q HS. apply HM1b in HS as (k & Hk & _ & ->). lia. }
  exists (fill_ops n ++ [SmGc marks]), sm1. eexists _, _. split.
  { rewrite sm_run_app, E. cbn [bind sm_run sm_step]. rewrite EG. cbn [bind]. reflexivity. }
  (* first registration *)
  assert (R1 : sm_register sm_fuel sm1 [98] false =
     Ok (mkSm (s2i_set (str2id sm1) [98] 65535) (i2s_set (id2str sm1) 65535 ([98], false)) 65535 (gcdata sm1), 65535)).
  { unfold sm_register. rewrite (si_s2i _ _ H1), Hnot by lia. cbn [option_map]. rewrite Hm1.
    change (wrap16 (65535 + 1)) with 0. change (0 =? 0) with true. cbv iota zeta.
    change (wrap16 (0 + 1)) with 1.
    destruct (nat_of 65534 ltac:(lia)) as (k & Hk).
    rewrite (find_free_first _ k sm_fuel 1).
    - replace (1 + Z.of_nat k) with 65535 by lia. reflexivity.
    - pose proof sm_fuel_val; lia.
    - lia.
    - intros j Hj. rewrite wrap16_id by lia. apply Hin. lia.
    - rewrite wrap16_id by lia. apply Hout. lia. }
  set (sm2 := mkSm (s2i_set (str2id sm1) [98] 65535) (i2s_set (id2str sm1) 65535 ([98], false)) 65535 (gcdata sm1)) in *.
  assert (H2 : SInv sm2 (lm_set M1 [98] (65535, false))).
  { apply SInv_add; auto; try lia. apply Hnot; lia. }
  assert (R2 : sm_register sm_fuel sm2 [99] false =
     Ok (mkSm (s2i_set (str2id sm2) [99] 65535) (i2s_set (id2str sm2) 65535 ([99], false)) 0 (gcdata sm2), 65535)).
  { unfold sm_register. rewrite (si_s2i _ _ H2). rewrite lm_set_other by discriminate.
    rewrite Hnot by lia. cbn [option_map]. cbn [sm2 maxsid].
    change (wrap16 (65535 + 1)) with 0. change (0 =? 0) with true. cbv iota zeta.
    change (wrap16 (0 + 1)) with 1.
    assert (HG : forall i, 0 <= i < 65536 -> i2s_get (id2str sm2) i = if 65535 =? i then Some ([98], false) else i2s_get (id2str sm1) i).
    { intros i Hi. cbn [sm2 id2str]. unfold i2s_get, i2s_set. rewrite (get_set _ _ _ good_i16) by apply H1.
      rewrite u16_eqb_rng by lia. reflexivity. }
    destruct (nat_of 65535 ltac:(lia)) as (k & Hk).
    rewrite (find_free_first _ k sm_fuel 1).
    - replace (1 + Z.of_nat k) with 65536 by lia. reflexivity.
    - pose proof sm_fuel_val; lia.
    - lia.
    - intros j Hj. rewrite wrap16_id by lia. rewrite HG by lia. destruct (65535 =? _) eqn:E9; [discriminate|].
      apply Hin. lia.
    - replace (1 + Z.of_nat k) with 65536 by lia. change (wrap16 65536) with 0.
      rewrite HG by lia. change (65535 =? 0) with false. apply Hout; auto. }
  set (sm3 := mkSm (s2i_set (str2id sm2) [99] 65535) (i2s_set (id2str sm2) 65535 ([99], false)) 0 (gcdata sm2)) in *.
  assert (R3 : sm_register sm_fuel sm3 [98] false = Ok (sm3, 65535)).
  { unfold sm_register. cbn [sm3 str2id].
    assert (s2i_get (s2i_set (str2id sm2) [99] 65535) [98] = Some 65535) as ->; [|reflexivity].
    unfold s2i_get, s2i_set. rewrite (get_set _ _ _ good_str) by apply H2.
    change (str_eqb [99] [98]) with false. cbv iota. fold (s2i_get (str2id sm2) [98]).
    rewrite (si_s2i _ _ H2), lm_set_same. reflexivity. }
  assert (R4 : sm_get sm3 65535 = Some [99]).
  { unfold sm_get. cbn [sm3 id2str]. unfold i2s_get, i2s_set. rewrite (get_set _ _ _ good_i16) by apply H2.
    rewrite u16_eqb_rng by lia. reflexivity. }
  cbn [sm_run sm_step]. rewrite R1. cbn [bind]. rewrite R2. cbn [bind]. rewrite R3. cbn [bind]. rewrite R4.
  reflexivity.
Qed.
