(** Theorems about debug information and the debugger: C48, C49, C74-C76. *)
From Coq Require Import String.
From Verif Require Import Base ListLemmas Float Dict DictSpec PDict DictProofs PDictKeys Strman Obj Instr Vm VmSpec VmProofs VmFrames PropsVm Text StrmanProofs TextProofs Debug.

Ltac Zify.zify_post_hook ::= idtac.

(** ** C48 *)
(** A record: a bytecode offset and a position in the script. *)
Notation rec := (Z * dentry)%type.
Definition record_all (recs : list rec) : dbg :=
  fold_left (fun d r => info_set d (fst r) (de_line (snd r)) (de_col (snd r)) (de_file (snd r))) recs dbg_new.
(** [e] is the last position recorded for [off]. *)
Definition last_for (recs : list rec) (off : Z) (e : dentry) : Prop :=
  exists a b, recs = a ++ (off, e) :: b /\ forall r, In r b -> fst r <> off.
(** [o] is the smallest offset recorded for position [e]. *)
Definition smallest_for (recs : list rec) (e : dentry) (o : Z) : Prop :=
  In (o, e) recs /\ forall o', In (o', e) recs -> o <= o'.

Definition de_eqb (a b : dentry) : bool := (de_line a =? de_line b) && (de_col a =? de_col b) && str_eqb (de_file a) (de_file b).
Lemma de_eqb_eq a b : de_eqb a b = true <-> a = b.
Proof.
  destruct a as [l c f], b as [l' c' f']. unfold de_eqb. cbn. rewrite !andb_true_iff, !Z.eqb_eq, str_eqb_eq. split; [intros [[-> ->] ->]; auto|intro H; inversion H; auto].
Qed.
Lemma good_de : goodkeys entryhash entrycmp de_eqb.
Proof.
  split; [|split].
  - split; [|split].
    + intro a. apply de_eqb_eq. auto.
    + intros a b. destruct (de_eqb a b) eqn:E1, (de_eqb b a) eqn:E2; auto.
      * apply de_eqb_eq in E1. subst. assert (de_eqb b b = true) by (apply de_eqb_eq; auto). congruence.
      * apply de_eqb_eq in E2. subst. assert (de_eqb a a = true) by (apply de_eqb_eq; auto). congruence.
    + intros a b c. rewrite !de_eqb_eq. congruence.
  - intros [l c f] [l' c' f']. unfold entrycmp. cbn [de_line de_col de_file].
    assert (HS : strcmp f f' = 0 <-> str_eqb f f' = true) by apply (proj1 (proj2 good_str)).
    destruct (strcmp f f' =? 0) eqn:E.
    + assert (HF : str_eqb f f' = true) by (apply HS; lia). unfold de_eqb. cbn [de_line de_col de_file]. rewrite HF, andb_true_r, andb_true_iff.
      destruct (l <? l') eqn:E1; [split; [discriminate|lia]|]. destruct (l' <? l) eqn:E2; [split; [discriminate|lia]|].
      destruct (c <? c') eqn:E3; [split; [discriminate|lia]|]. destruct (c' <? c) eqn:E4; [split; [discriminate|lia]|]. split; auto. lia.
    + unfold de_eqb. cbn [de_line de_col de_file]. split; [lia|]. intro H. apply andb_true_iff in H as [_ H]. apply HS in H. lia.
  - intros a b H. apply de_eqb_eq in H. subst. auto.
Qed.

Record dinv (d : dbg) (recs : list rec) : Prop := {
  di_w1 : PWf uintkeyhash Z.eqb (off2script d);
  di_w2 : PWf entryhash de_eqb (script2off d);
  di_off : forall off e, from_offset d off = Some e <-> last_for recs off e;
  di_scr : forall e o, s2o_get (script2off d) e = Some o <-> smallest_for recs e o
}.
Lemma last_cases {A} (l : list A) : l = [] \/ exists a x, l = a ++ [x].
Proof. induction l as [|x l _] using rev_ind; eauto. Qed.
Lemma last_snoc recs off e off' e' : last_for (recs ++ [(off', e')]) off e <-> (off' = off /\ e' = e \/ off' <> off /\ last_for recs off e).
Proof.
  split.
  - intros (a & b & E & H). destruct (last_cases b) as [->|(b' & x & ->)].
    + apply app_inj_tail in E as [_ E]. inversion E. auto.
    + change ((off, e) :: b' ++ [x]) with (((off, e) :: b') ++ [x]) in E. rewrite app_assoc in E. apply app_inj_tail in E as [-> <-].
      right. split; [apply (H (off', e')); apply in_or_app; right; left; auto|]. exists a, b'. split; auto. intros r Hr. apply H. apply in_or_app; auto.
  - intros [[-> ->]|[HN (a & b & -> & H)]].
    + exists recs, []. split; [auto|]. intros r [].
    + exists a, (b ++ [(off', e')]). split; [rewrite <- app_assoc; reflexivity|]. intros r Hr. apply in_app_or in Hr as [Hr|[<-|[]]]; auto.
Qed.
Lemma dinv_set d recs off e : dinv d recs -> dinv (info_set d off (de_line e) (de_col e) (de_file e)) (recs ++ [(off, e)]).
Proof.
  intros [W1 W2 HO HS]. assert (Ee : mkDe (de_line e) (de_col e) (de_file e) = e) by (destruct e; auto). unfold info_set. rewrite Ee.
  constructor; cbn [off2script script2off].
  - apply (wf_set _ _ _ good_u). auto.
  - destruct (s2o_get (script2off d) e); [destruct (_ <? _)|]; auto; apply (wf_set _ _ _ good_de); auto.
  - intros off' e'. rewrite last_snoc, <- HO. unfold from_offset, o2s_get, o2s_set. cbn [off2script]. rewrite (get_set _ _ _ good_u) by auto.
    destruct (off =? off') eqn:E.
    + assert (off = off') by lia. split; [intro HH; inversion HH; auto|intros [[_ ->]|[HN _]]; [auto|congruence]].
    + split; [right; split; [lia|auto]|intros [[HN _]|[_ HH]]; [lia|auto]].
  - intros e' o. assert (HSn : smallest_for (recs ++ [(off, e)]) e' o <-> (e = e' /\ (o = off /\ (forall o', In (o', e) recs -> off <= o') \/ smallest_for recs e o /\ o <= off) \/ e <> e' /\ smallest_for recs e' o)).
    { unfold smallest_for. split.
      - intros [Hin Hm]. destruct (de_eqb e e') eqn:EE.
        + apply de_eqb_eq in EE. subst e'. left. split; auto. apply in_app_or in Hin as [Hin|[Hin|[]]].
          * right. split; [split; auto; intros; apply Hm; apply in_or_app; auto|]. apply Hm. apply in_or_app. right. left. auto.
          * inversion Hin; subst. left. split; auto. intros. apply Hm. apply in_or_app; auto.
        + assert (e <> e') by (intros ->; assert (de_eqb e' e' = true) by (apply de_eqb_eq; auto); congruence). right. split; auto. split.
          * apply in_app_or in Hin as [Hin|[Hin|[]]]; auto. inversion Hin. congruence.
          * intros. apply Hm. apply in_or_app; auto.
      - intros [[<- [[-> Hm]|[[Hin Hm] Hle]]]|[HN [Hin Hm]]].
        + split; [apply in_or_app; right; left; auto|]. intros o' Ho. apply in_app_or in Ho as [Ho|[Ho|[]]]; auto. inversion Ho. lia.
        + split; [apply in_or_app; auto|]. intros o' Ho. apply in_app_or in Ho as [Ho|[Ho|[]]]; auto. inversion Ho. lia.
        + split; [apply in_or_app; auto|]. intros o' Ho. apply in_app_or in Ho as [Ho|[Ho|[]]]; auto. inversion Ho. congruence. }
    rewrite HSn. clear HSn.
    assert (HG : forall t, t = s2o_set (script2off d) e off -> s2o_get t e' = if de_eqb e e' then Some off else s2o_get (script2off d) e').
    { intros t ->. unfold s2o_get, s2o_set. apply (get_set _ _ _ good_de). auto. }
    assert (HB : e = e' /\ de_eqb e e' = true \/ e <> e' /\ de_eqb e e' = false).
    { destruct (de_eqb e e') eqn:EE; [left; split; auto; apply de_eqb_eq; auto|right; split; auto]. intros ->. assert (de_eqb e' e' = true) by (apply de_eqb_eq; auto). congruence. }
    destruct HB as [[<- HB]|[HN HB]].
    + destruct (s2o_get (script2off d) e) as [o0|] eqn:E0.
      * pose proof (proj1 (HS e o0) E0) as [Hin Hm]. destruct (off <? o0) eqn:El.
        -- rewrite (HG _ eq_refl), HB. split.
           ++ intro HH. inversion HH. subst o. left. split; auto. left. split; auto. intros o' Ho. specialize (Hm _ Ho). lia.
           ++ intros [[_ [[-> _]|[[Hin' Hm'] Hle]]]|[HH _]]; [auto| |congruence]. specialize (Hm _ Hin'). lia.
        -- rewrite HS. split.
           ++ intro HH. left. split; auto. right. split; auto. apply HS in HH. rewrite HH in E0. inversion E0. lia.
           ++ intros [[_ [[-> Hm']|[HH _]]]|[HH _]]; [|auto|congruence]. specialize (Hm' _ Hin). assert (off = o0) by lia. subst. split; auto.
      * rewrite (HG _ eq_refl), HB. assert (HNo : forall o', ~ In (o', e) recs).
        { intros o' Ho. assert (HEx : exists m, smallest_for recs e m).
          { clear - Ho. revert o' Ho. induction recs as [|[o1 e1] recs IH]; intros o' Ho; [destruct Ho|].
            destruct (existsb (fun r => de_eqb (snd r) e) recs) eqn:EX.
            - apply existsb_exists in EX as ([o2 e2] & Hin & HE). cbn in HE. apply de_eqb_eq in HE. subst e2. destruct (IH _ Hin) as (m & Hm1 & Hm2).
              destruct (de_eqb e1 e && (o1 <? m)) eqn:EB.
              + apply andb_true_iff in EB as [HE1 HE2]. apply de_eqb_eq in HE1. subst e1. exists o1. split; [left; auto|]. intros o3 [H3|H3]; [inversion H3; lia|specialize (Hm2 _ H3); lia].
              + exists m. split; [right; auto|]. intros o3 [H3|H3]; auto. inversion H3; subst. assert (de_eqb e e = true) by (apply de_eqb_eq; auto). rewrite H in EB. cbn in EB. lia.
            - assert (HNN : forall o2, ~ In (o2, e) recs). { intros o2 H2. assert (existsb (fun r => de_eqb (snd r) e) recs = true) by (apply existsb_exists; exists (o2, e); split; auto; apply de_eqb_eq; auto). congruence. }
              destruct Ho as [Ho|Ho]; [|exfalso; eapply HNN; eauto]. inversion Ho; subst. exists o'. split; [left; auto|]. intros o3 [H3|H3]; [inversion H3; lia|exfalso; eapply HNN; eauto]. }
          destruct HEx as (m & Hm). apply HS in Hm. congruence. }
        split.
        -- intro HH. inversion HH. left. split; auto. left. split; auto. intros o' Ho. exfalso. eapply HNo; eauto.
        -- intros [[_ [[-> _]|[[Hin _] _]]]|[HH _]]; [auto|exfalso; eapply HNo; eauto|congruence].
    + assert (HK : s2o_get (match s2o_get (script2off d) e with Some o0 => if off <? o0 then s2o_set (script2off d) e off else script2off d | None => s2o_set (script2off d) e off end) e' = s2o_get (script2off d) e').
      { destruct (s2o_get (script2off d) e); [destruct (_ <? _)|]; auto; rewrite (HG _ eq_refl), HB; auto. }
      rewrite HK, HS. split; [auto|intros [[HH _]|[_ HH]]; [congruence|auto]].
Qed.
Lemma dinv_new : dinv dbg_new [].
Proof.
  constructor; cbn [dbg_new off2script script2off].
  - apply (wf_new _ _ _ good_u). lia.
  - apply (wf_new _ _ _ good_de). lia.
  - intros off e. unfold from_offset, o2s_get. cbn [dbg_new off2script]. rewrite (get_new _ _ _ good_u) by lia. split; [discriminate|]. intros ([|x a] & b & H & _); discriminate.
  - intros e o. unfold s2o_get. rewrite (get_new _ _ _ good_de) by lia. split; [discriminate|]. intros [[] _].
Qed.
Lemma dinv_all recs : forall d r0, dinv d r0 -> dinv (fold_left (fun d r => info_set d (fst r) (de_line (snd r)) (de_col (snd r)) (de_file (snd r))) recs d) (r0 ++ recs).
Proof.
  induction recs as [|[off e] recs IH]; intros d r0 H; cbn [fold_left]. { rewrite app_nil_r. auto. }
  replace (r0 ++ (off, e) :: recs) with ((r0 ++ [(off, e)]) ++ recs) by (rewrite <- app_assoc; reflexivity). apply IH. apply dinv_set. auto.
Qed.
Lemma dinv_recs recs : dinv (record_all recs) recs.
Proof. apply (dinv_all recs dbg_new [] dinv_new). Qed.

Theorem C48_debug_map :
  forall recs, let d := record_all recs in
    (forall off e, from_offset d off = Some e <-> last_for recs off e) /\
    (forall line col file o, from_script d line col file = Some o <-> smallest_for recs (mkDe line col file) o).
Proof. intro recs. cbv zeta. pose proof (dinv_recs recs) as I. split; [apply I|]. intros. apply (di_scr _ _ I). Qed.
Print Assumptions C48_debug_map.
Definition demo_recs : list rec := [(12, mkDe 3 4 (bs "a.bzz")); (7, mkDe 3 4 (bs "a.bzz")); (20, mkDe 5 1 (bs "b.bzz")); (20, mkDe 6 1 (bs "b.bzz")); (9, mkDe 3 4 (bs "a.bzz"))].
Example C48_nontrivial :
  from_script (record_all demo_recs) 3 4 (bs "a.bzz") = Some 7 /\ from_offset (record_all demo_recs) 20 = Some (mkDe 6 1 (bs "b.bzz")) /\
  from_offset (record_all demo_recs) 12 = Some (mkDe 3 4 (bs "a.bzz")) /\ from_script (record_all demo_recs) 3 5 (bs "a.bzz") = None.
Proof. vm_compute. auto. Qed.

(** ** C49: breakpoints and continue *)
Inductive bp_op := BpSet (off : Z) | BpRemove (i : Z) | BpClear.
Definition bp_apply (d : dbg) (o : bp_op) : dbg :=
  match o with BpSet off => bp_set d off | BpRemove i => bp_remove d i | BpClear => bp_clear d end.
(** The breakpoints after a history, as the set of their offsets: set adds one, clear removes all,
    remove(i) the i-th of the list. *)
Lemma existsb_eqb l x : existsb (Z.eqb x) l = true <-> In x l.
Proof. rewrite existsb_exists. split; [intros (y & H & E); assert (x = y) by lia; subst; auto|intro H; exists x; split; auto; lia]. Qed.
Lemma del_in {A} (l : list A) i x : NoDup l -> nth_error l i = Some x -> forall y, In y (del l i) <-> In y l /\ y <> x.
Proof.
  intros ND HN y. rewrite del_firstn_skipn. destruct (nth_error_split l i HN) as (a & b & -> & <-). 
  rewrite firstn_app, Nat.sub_diag, firstn_all. cbn [firstn]. rewrite app_nil_r.
  rewrite skipn_app. rewrite skipn_all2 by lia. replace (S (length a) - length a)%nat with 1%nat by lia. cbn [skipn app].
  apply NoDup_remove_2 in ND. rewrite !in_app_iff in *. cbn [In]. split.
  - intros H. split; [tauto|]. intros ->. tauto.
  - intros [[H|[H|H]] HN2]; auto. congruence.
Qed.
Theorem C49_breakpoints_are_a_set :
  forall ops, let d := fold_left bp_apply ops dbg_new in
    NoDup (breakpoints d) /\
    (forall off, bp_exists d off = true <-> In off (breakpoints d)) /\
    (forall off off', bp_exists (bp_set d off) off' = true <-> off' = off \/ bp_exists d off' = true) /\
    (forall i off off', nth_error (breakpoints d) (Z.to_nat i) = Some off -> 0 <= i ->
       (bp_exists (bp_remove d i) off' = true <-> off' <> off /\ bp_exists d off' = true)) /\
    (forall i, ~ (0 <= i < zlen (breakpoints d)) -> bp_remove d i = d) /\
    (forall off, bp_exists (bp_clear d) off = false).
Proof.
  intro ops. cbv zeta. set (d := fold_left bp_apply ops dbg_new).
  assert (ND : NoDup (breakpoints d)).
  { assert (H : forall l d0, NoDup (breakpoints d0) -> NoDup (breakpoints (fold_left bp_apply l d0))).
    { induction l as [|o l IH]; intros d0 H0; cbn [fold_left]; auto. apply IH. destruct o as [off|i|]; cbn [bp_apply].
      - unfold bp_set, bp_exists. destruct (existsb _ _) eqn:E; auto. cbn [set_bps breakpoints].
        assert (HN : NoDup (rev (off :: rev (breakpoints d0)))); [|cbn [rev] in HN; rewrite rev_involutive in HN; exact HN].
        apply NoDup_rev. constructor; [|apply NoDup_rev; auto].
        rewrite <- in_rev. intro HI. apply existsb_eqb in HI. congruence.
      - unfold bp_remove. destruct (_ && _) eqn:E; auto. cbn [set_bps breakpoints]. rewrite del_firstn_skipn.
        assert (HL : (Z.to_nat i < length (breakpoints d0))%nat) by (unfold zlen in E; lia).
        destruct (nth_error_lt_some _ _ HL) as [x Hx]. destruct (nth_error_split _ _ Hx) as (a & b & EQ & <-). rewrite EQ in *.
        rewrite firstn_app, Nat.sub_diag, firstn_all. cbn [firstn]. rewrite app_nil_r, skipn_app, skipn_all2 by lia.
        replace (S (length a) - length a)%nat with 1%nat by lia. cbn [skipn app]. eapply NoDup_remove_1; eauto.
      - constructor. }
    apply H. constructor. }
  split; auto. split; [intro off; apply existsb_eqb|]. split; [|split; [|split]].
  - intros off off'. unfold bp_set. destruct (bp_exists d off) eqn:E; unfold bp_exists in *; cbn [set_bps breakpoints]; rewrite !existsb_eqb in *.
    + split; [auto|intros [-> | H]; auto].
    + rewrite in_app_iff. cbn [In]. intuition.
  - intros i off off' HN H0. assert (HL : (Z.to_nat i < length (breakpoints d))%nat) by (apply nth_error_Some; congruence).
    unfold bp_remove. replace ((0 <=? i) && (i <? zlen (breakpoints d))) with true by (unfold zlen; lia). unfold bp_exists. cbn [set_bps breakpoints]. rewrite !existsb_eqb.
    rewrite (del_in _ _ _ ND HN). tauto.
  - intros i H. unfold bp_remove. replace ((0 <=? i) && (i <? zlen (breakpoints d))) with false by lia. auto.
  - reflexivity.
Qed.
Print Assumptions C49_breakpoints_are_a_set.

Section Cont.
Context {X : Type}.
Variable flist : list (vm X -> res (vm X)).
Variable powf : libm.
Variable code : Z -> Z.
Variable size : Z.
Variable d : dbg.
Notation vm_step := (vm_step flist powf code size).
Notation vm_steps := (vm_steps flist powf code size).
Lemma run_to_bp_ok : forall fuel v v', v_state v = S_READY -> run_to_bp flist powf code size d fuel v = Ok v' ->
  exists n, vm_steps n v = Ok v' /\
    (forall m w, (m < n)%nat -> vm_steps m v = Ok w -> v_state w = S_READY /\ bp_exists d (v_pc w) = false) /\
    (v_state v' <> S_READY \/ bp_exists d (v_pc v') = true).
Proof.
  induction fuel as [|f IH]; intros v v' HR H; cbn [run_to_bp] in H; [discriminate|]. destruct (bp_exists d (v_pc v)) eqn:EB.
  - inversion H; subst. exists 0%nat. split; [reflexivity|]. split; [intros; lia|auto].
  - destruct (vm_step v) as [v1| | |] eqn:E1; cbn [bind] in H; try discriminate. destruct (is_ready (v_state v1)) eqn:ER.
    + assert (HR1 : v_state v1 = S_READY) by (destruct (v_state v1); auto; discriminate). destruct (IH v1 v' HR1 H) as (n & Hn & Hm & HE).
      exists (S n). split; [cbn [Vm.vm_steps]; rewrite E1; exact Hn|]. split; auto. intros m w Hlt Hw. destruct m as [|m].
      * inversion Hw; subst. auto.
      * cbn [Vm.vm_steps] in Hw. rewrite E1 in Hw. cbn [bind] in Hw. apply (Hm m w); auto. lia.
    + inversion H; subst. exists 1%nat. split; [cbn [Vm.vm_steps]; rewrite E1; reflexivity|]. split.
      * intros m w Hlt Hw. assert (m = 0%nat) by lia. subst m. inversion Hw; subst. auto.
      * left. intro HH. rewrite HH in ER. discriminate.
Qed.
End Cont.
(** Continue executes instructions until the first one at a breakpoint, where the VM is stopped, or
    until the script ends or fails; it executes no instruction at a breakpoint. *)
Theorem C49_continue_partial :
  forall X flist powf code size d fuel (v v' : vm X), v_state v = S_READY \/ v_state v = S_STOPPED ->
    continue_ flist powf code size d fuel v = Ok v' ->
    exists n w, vm_steps flist powf code size n (set_state v S_READY (v_error v)) = Ok w /\
      (forall m u, (m < n)%nat -> vm_steps flist powf code size m (set_state v S_READY (v_error v)) = Ok u ->
         v_state u = S_READY /\ ~ In (v_pc u) (breakpoints d)) /\
      (In (v_pc w) (breakpoints d) -> v' = set_state w S_STOPPED (v_error w)) /\
      (~ In (v_pc w) (breakpoints d) -> v' = w /\ v_state w <> S_READY).
Proof.
  intros X flist powf code size d fuel v v' HS H. unfold continue_ in H.
  assert (ER : resume v = set_state v S_READY (v_error v)) by (unfold resume; destruct HS as [HS|HS]; rewrite HS; auto; destruct v; cbn in *; subst; auto).
  rewrite ER in H. cbn [set_state v_state is_ready] in H.
  destruct (run_to_bp flist powf code size d fuel (set_state v S_READY (v_error v))) as [w| | |] eqn:EW; cbn [bind] in H; try discriminate.
  destruct (run_to_bp_ok _ _ _ _ _ fuel (set_state v S_READY (v_error v)) w eq_refl EW) as (n & Hn & Hm & HE). exists n, w. split; auto.
  assert (HB : forall u : vm X, bp_exists d (v_pc u) = false -> ~ In (v_pc u) (breakpoints d)).
  { intros u Hu HI. apply existsb_eqb in HI. unfold bp_exists in Hu. congruence. }
  split; [|split].
  - intros m u Hlt Hu. destruct (Hm m u Hlt Hu). auto.
  - intro HI. apply existsb_eqb in HI. unfold bp_exists in H. rewrite HI in H. inversion H. reflexivity.
  - intro HI. destruct (bp_exists d (v_pc w)) eqn:E; [exfalso; apply HI; apply existsb_eqb; auto|]. inversion H. split; auto. subst. destruct HE; [auto|discriminate].
Qed.
Print Assumptions C49_continue_partial.
(** On a breakpoint, continue executes nothing. *)
Theorem C49_no_progress_refuted :
  forall X flist powf code size d fuel (v : vm X), v_state v = S_STOPPED -> In (v_pc v) (breakpoints d) ->
    continue_ flist powf code size d (S fuel) v = Ok v.
Proof.
  intros X flist powf code size d fuel v HS HI. apply existsb_eqb in HI. unfold continue_, resume. rewrite HS. destruct v. cbn in HS, HI |- *. unfold bp_exists. cbn.
  rewrite !HI. cbn. rewrite HI. cbn. unfold stop. cbn. rewrite HS. reflexivity.
Qed.
Print Assumptions C49_no_progress_refuted.

(** A program that pushes 5 and 7, with a breakpoint on the second instruction. *)
Definition two_pushes : Z -> Z := mem_of [36; 5; 0; 0; 0; 36; 7; 0; 0; 0; 1; 0].
Definition bp5 : dbg := bp_set dbg_new 5.
Example C49_nontrivial :
  match continue_ [] no_pow two_pushes 12 bp5 20 vm0 with
  | Ok v1 => v_state v1 = S_STOPPED /\ v_pc v1 = 5 /\ stack v1 = [OInt 5] /\ In (v_pc v1) (breakpoints bp5)
  | _ => False
  end /\ v_state vm0 = S_READY /\ breakpoints (fold_left bp_apply [BpSet 5; BpSet 9; BpSet 5; BpRemove 0] dbg_new) = [9].
Proof. vm_compute. repeat split. left. auto. Qed.

(** ** C75: errors found by continue *)
(** The VM fails on the first instruction (add needs two operands) and a breakpoint is on the next
    one: continue says the VM stopped at a breakpoint, and a second continue goes on as if nothing had
    happened. *)
Definition failing_add : Z -> Z := mem_of [7; 36; 7; 0; 0; 0; 1; 0].
Theorem C75_error_reported_refuted :
  exists (d d' : dbg) (v v1 v2 : vm unit),
    (exists w, vm_step [] no_pow failing_add 8 v = Ok w /\ v_state w = S_ERROR /\ v_error w = E_STACK) /\
    continue_ [] no_pow failing_add 8 d 20 v = Ok v1 /\ v_state v1 = S_STOPPED /\
    breakpoints d' = [] /\ continue_ [] no_pow failing_add 8 d' 20 v1 = Ok v2 /\ v_state v2 = S_DONE.
Proof.
  exists (bp_set dbg_new 1), dbg_new, vm0. do 2 eexists. split; [eexists; split; [vm_compute; reflexivity|split; reflexivity]|].
  split; [vm_compute; reflexivity|]. split; [reflexivity|]. split; [reflexivity|]. split; [vm_compute; reflexivity|reflexivity].
Qed.
Print Assumptions C75_error_reported_refuted.
(** Without a breakpoint right after the failing instruction the error is reported. *)
Theorem C75_error_reported_partial :
  forall X flist powf code size d fuel (v v' : vm X), v_state v = S_READY \/ v_state v = S_STOPPED ->
    continue_ flist powf code size d fuel v = Ok v' ->
    forall n w, vm_steps flist powf code size n (set_state v S_READY (v_error v)) = Ok w -> v_state w = S_ERROR -> ~ In (v_pc w) (breakpoints d) ->
    (forall m u, (m < n)%nat -> vm_steps flist powf code size m (set_state v S_READY (v_error v)) = Ok u -> v_state u = S_READY /\ ~ In (v_pc u) (breakpoints d)) ->
    v' = w.
Proof.
  intros X flist powf code size d fuel v v' HS H n w Hn HW HB Hm. destruct (C49_continue_partial _ _ _ _ _ _ _ _ _ HS H) as (n' & w' & Hn' & Hm' & HI & HNI).
  assert (n = n').
  { destruct (Nat.lt_trichotomy n n') as [HL|[HL|HL]]; auto.
    - destruct (Hm' n w HL Hn). congruence.
    - destruct (Hm n' w' HL Hn') as [HR HNB]. destruct (HNI HNB). congruence. }
  subst n'. rewrite Hn in Hn'. inversion Hn'; subst w'. apply HNI. auto.
Qed.
Print Assumptions C75_error_reported_partial.
Example C75_nontrivial :
  match vm_steps [] no_pow failing_add 8 1 vm0, continue_ [] no_pow failing_add 8 (bp_set dbg_new 6) 20 vm0 with
  | Ok w, Ok v' => v_state w = S_ERROR /\ v' = w /\ ~ In (v_pc w) (breakpoints (bp_set dbg_new 6))
  | _, _ => False
  end.
Proof. vm_compute. repeat split. intros [H|[]]. discriminate. Qed.

(** ** C76: without breakpoints the debugger behaves like the VM *)
Theorem C76_closure_call_without_breakpoints :
  forall X flist powf code size d fuel (v : vm X) argc, breakpoints d = [] -> v_state v = S_READY ->
    debug_closure_call flist powf code size d fuel v argc = closure_call flist powf code size fuel v argc.
Proof.
  intros X flist powf code size d fuel v argc HB HR. unfold debug_closure_call, closure_call, resume. rewrite HR. cbv beta iota. rewrite HR. cbn [is_ready negb].
  destruct (_ <? _); auto.
  match goal with |- bind ?e _ = _ => destruct e as [v2| | |] end; cbn [bind]; auto.
  match goal with |- debug_until _ _ _ _ _ _ ?z _ = _ => generalize z end. intro z. revert v2. induction fuel as [|f IH]; intro v2; cbn [debug_until step_until]; auto.
  unfold bp_exists. rewrite HB. cbn [existsb]. destruct (vm_step _ _ _ _ v2) as [v3| | |]; cbn [bind]; auto. destruct (negb _); auto. destruct (_ <? _); auto.
Qed.
Print Assumptions C76_closure_call_without_breakpoints.
Theorem C76_continue_without_breakpoints :
  forall X flist powf code size d fuel (v : vm X), breakpoints d = [] -> v_state v = S_READY ->
    continue_ flist powf code size d fuel v = execute_script flist powf code size fuel v.
Proof.
  intros X flist powf code size d fuel v HB HR. unfold continue_, resume. rewrite HR. cbv beta iota. rewrite HR. cbn [is_ready].
  revert v HR. induction fuel as [|f IH]; intros v HR; cbn [run_to_bp execute_script]; auto.
  unfold bp_exists. rewrite HB. cbn [existsb]. destruct (vm_step _ _ _ _ v) as [v3| | |]; cbn [bind]; auto. destruct (is_ready (v_state v3)) eqn:E; cbn [bind]; auto.
  destruct (v_state v3) eqn:E3; try discriminate. specialize (IH v3 E3). rewrite <- IH. unfold bp_exists. rewrite HB. reflexivity.
Qed.
Print Assumptions C76_continue_without_breakpoints.

(** ** C74: saving and loading debug information *)
Lemma le_length n : forall z, length (le n z) = n.
Proof. induction n as [|n IH]; intro z; cbn [le length]; auto. Qed.
Lemma unle_le n : forall z, 0 <= z < 256 ^ Z.of_nat n -> unle (le n z) = z.
Proof.
  induction n as [|n IH]; intros z H; cbn [le unle]. { change (256 ^ Z.of_nat 0) with 1 in H. lia. }
  rewrite Nat2Z.inj_succ, Z.pow_succ_r in H by lia. rewrite IH.
  - pose proof (Z.div_mod z 256). lia.
  - split; [apply Z.div_pos; lia|apply Z.div_lt_upper_bound; lia].
Qed.
Lemma unle_le_mod n : forall z, unle (le n z) = z mod 256 ^ Z.of_nat n.
Proof.
  induction n as [|n IH]; intro z; cbn [le unle]. { change (256 ^ Z.of_nat 0) with 1. rewrite Z.mod_1_r. auto. }
  rewrite IH, Nat2Z.inj_succ, Z.pow_succ_r by lia. rewrite Z.rem_mul_r by lia. lia.
Qed.
Lemma unle_le4 z : 0 <= z + 2147483648 < 4294967296 -> sign32 (unle (le 4 z)) = z.
Proof.
  intro H. rewrite unle_le_mod. change (256 ^ Z.of_nat 4) with 4294967296. unfold sign32, wrap32. change (2 ^ 32) with 4294967296. change (2 ^ 31) with 2147483648. rewrite Z.mod_mod by lia.
  destruct (Z_lt_le_dec z 0) as [Hz|Hz].
  - replace (z mod 4294967296) with (z + 4294967296) by (apply (Z.mod_unique_pos _ _ (-1)); lia). cbv zeta. destruct (_ <? _) eqn:E; lia.
  - rewrite Z.mod_small by lia. cbv zeta. destruct (_ <? _) eqn:E; lia.
Qed.
Lemma skipn_skipn_add {A} : forall a b (l : list A), skipn b (skipn a l) = skipn (a + b) l.
Proof. induction a as [|a IH]; intros b l; cbn [skipn Nat.add]; auto. destruct l; auto. destruct b; auto. Qed.
(** A record that fits the file format: a 32-bit offset, 64-bit line and column, and a file name of at
    most 511 characters. *)
Definition storable (r : rec) : Prop :=
  let '(off, e) := r in
  -2147483648 <= off < 2147483648 /\ 0 <= de_line e < 2 ^ 64 /\ 0 <= de_col e < 2 ^ 64 /\
  zlen (de_file e) < 512 /\ Forall (fun c => 0 < c < 256) (de_file e).
Lemma firstn_app_exact {A} n (a b : list A) : length a = n -> firstn n (a ++ b) = a.
Proof. intros <-. rewrite firstn_app, Nat.sub_diag, firstn_all. cbn [firstn]. apply app_nil_r. Qed.
Lemma skipn_app_exact {A} n (a b : list A) : length a = n -> skipn n (a ++ b) = b.
Proof. intros <-. rewrite skipn_app, Nat.sub_diag, skipn_all. reflexivity. Qed.
Lemma load_one n off e rest d : storable (off, e) ->
  load_entries (S n) (dump_entry (off, e) ++ rest) 512 d = load_entries n rest 512 (info_set d off (de_line e) (de_col e) (de_file e)).
Proof.
  intros (H1 & H2 & H3 & H4 & H5). pose proof (Zle_0_nat (length (de_file e))). unfold dump_entry. rewrite (wrap16_id (zlen (de_file e))) by (unfold zlen in *; lia).
  assert (EF : firstn (Z.to_nat (zlen (de_file e))) (de_file e) = de_file e) by (rewrite firstn_all2 by (unfold zlen; lia); auto). rewrite EF.
  rewrite <- ?app_assoc. set (f := le 4 off ++ _). cbn [load_entries].
  assert (LF : length f = (22 + length (de_file e) + length rest)%nat) by (unfold f; rewrite !app_length, !le_length; lia).
  replace (zlen f <? 22) with false by (unfold zlen; lia).
  assert (S4 : firstn 4 f = le 4 off) by (unfold f; apply firstn_app_exact; apply le_length).
  assert (K4 : skipn 4 f = le 8 (de_line e) ++ le 8 (de_col e) ++ le 2 (zlen (de_file e)) ++ de_file e ++ rest) by (unfold f; apply skipn_app_exact; apply le_length).
  assert (K12 : skipn 12 f = le 8 (de_col e) ++ le 2 (zlen (de_file e)) ++ de_file e ++ rest).
  { change 12%nat with (4 + 8)%nat. rewrite <- skipn_skipn_add, K4. apply skipn_app_exact, le_length. }
  assert (K20 : skipn 20 f = le 2 (zlen (de_file e)) ++ de_file e ++ rest).
  { change 20%nat with (12 + 8)%nat. rewrite <- skipn_skipn_add, K12. apply skipn_app_exact, le_length. }
  assert (K22 : skipn 22 f = de_file e ++ rest).
  { change 22%nat with (20 + 2)%nat. rewrite <- skipn_skipn_add, K20. apply skipn_app_exact, le_length. }
  rewrite S4, K4, K12, K20, K22, !firstn_app_exact by apply le_length. rewrite unle_le4 by lia. rewrite !unle_le; try (unfold zlen in *; change (256 ^ Z.of_nat 8) with (2 ^ 64); change (256 ^ Z.of_nat 2) with 65536; lia).
  cbv zeta. replace (512 <? zlen (de_file e)) with false by lia. replace (512 <? zlen (de_file e)) with false by lia.
  replace (zlen (de_file e ++ rest) <? zlen (de_file e)) with false by (unfold zlen; rewrite app_length; lia).
  replace (zlen (de_file e) =? 512) with false by lia.
  rewrite (skipn_app_exact (Z.to_nat (zlen (de_file e)))), firstn_app_exact by (unfold zlen; lia). rewrite cstr_id by (eapply Forall_impl; [|exact H5]; cbn; intros; lia). reflexivity.
Qed.
Lemma load_all : forall l n d, Forall storable l -> (length l < n)%nat ->
  load_entries n (concat (map dump_entry l)) 512 d = Ok (fold_left (fun d r => info_set d (fst r) (de_line (snd r)) (de_col (snd r)) (de_file (snd r))) l d).
Proof.
  induction l as [|[off e] l IH]; intros n d HF Hn; destruct n as [|n]; cbn [length] in Hn; try lia.
  - reflexivity.
  - inversion HF as [|? ? Hs Hl]; subst. change (concat (map dump_entry ((off, e) :: l))) with (dump_entry (off, e) ++ concat (map dump_entry l)). rewrite load_one by auto. cbn [fold_left fst snd]. apply IH; auto. lia.
Qed.
Lemma last_for_in l off e : last_for l off e -> In (off, e) l.
Proof. intros (a & b & -> & _). apply in_or_app. right. left. auto. Qed.
Lemma nodup_last l off e : NoDupK Z.eqb l -> (last_for l off e <-> In (off, e) l).
Proof.
  intro ND. split; [apply last_for_in|]. induction l as [|[o x] l IH]; intro H; [destruct H|]. cbn [NoDupK] in ND. destruct ND as [HN HT].
  destruct H as [H|H].
  - inversion H; subst. exists [], l. split; [reflexivity|]. intros [o' e'] Hr E. cbn in E. subst. specialize (HN _ Hr). cbn in HN. lia.
  - destruct (IH HT H) as (a & b & -> & Hb). exists ((o, x) :: a), b. split; auto.
Qed.
Theorem C74_save_load_partial :
  forall recs, Forall storable recs -> let d := record_all recs in
    exists d', fromfile dbg_new (fst (tofile d)) = Ok (d', 1) /\
      (forall off, from_offset d' off = from_offset d off) /\
      (forall line col file o, from_script d' line col file = Some o <->
         from_offset d o = Some (mkDe line col file) /\ (forall o', from_offset d o' = Some (mkDe line col file) -> o <= o')).
Proof.
  intros recs HF. cbv zeta. set (d := record_all recs). pose proof (dinv_recs recs) as I. fold d in I.
  set (l := pentries (off2script d)). assert (ND : NoDupK Z.eqb l) by (apply (entries_nodup uintkeyhash); apply I).
  assert (HG : forall off e, from_offset d off = Some e <-> In (off, e) l).
  { intros off e. unfold from_offset, o2s_get. rewrite (get_in _ _ _ good_u) by apply I. split; [intros (k & Hk & E); assert (off = k) by lia; subst; auto|intro H; exists off; split; auto; lia]. }
  assert (HL : Forall storable l).
  { rewrite Forall_forall in HF |- *. intros [off e] Hin. apply HF. apply last_for_in. apply (di_off _ _ I). apply HG. auto. }
  exists (record_all l). split; [|].
  - unfold fromfile, tofile. cbn [fst]. fold l. rewrite load_all; [reflexivity|auto|].
    assert (HC : forall k : list rec, (length k <= length (concat (map dump_entry k)))%nat).
    { induction k as [|[o x] k IH]; cbn [map concat length]; [lia|]. rewrite app_length. assert (0 < length (dump_entry (o, x)))%nat by (unfold dump_entry; rewrite app_length, le_length; lia). lia. }
    specialize (HC l). lia.
  - pose proof (dinv_recs l) as I2. split.
    + intro off. destruct (from_offset d off) as [e|] eqn:E.
      * apply (di_off _ _ I2). apply nodup_last; auto. apply HG. auto.
      * destruct (from_offset (record_all l) off) as [e|] eqn:E2; auto. apply (di_off _ _ I2) in E2. apply nodup_last in E2; auto. apply HG in E2. congruence.
    + intros line col file o. unfold from_script. rewrite (di_scr _ _ I2). unfold smallest_for. rewrite HG. split; intros [A B]; (split; [auto|]); intros o' Ho; apply B; apply HG; auto.
Qed.
Print Assumptions C74_save_load_partial.
Example C74_nontrivial :
  Forall storable demo_recs /\
  match fromfile dbg_new (fst (tofile (record_all demo_recs))) with
  | Ok (d', _) => from_offset d' 20 = Some (mkDe 6 1 (bs "b.bzz")) /\ from_script d' 3 4 (bs "a.bzz") = Some 7
  | _ => False
  end.
Proof. split; [|vm_compute; auto]. unfold demo_recs. repeat (apply Forall_cons; [cbn [storable de_line de_col de_file]; repeat split; try lia; try (vm_compute; reflexivity); repeat (constructor; [vm_compute; split; reflexivity|]); constructor|]). constructor. Qed.

(** A saved file with a name of exactly 512 characters cannot be loaded: the terminator is written
    outside the buffer. *)
Theorem C74_long_name_refuted :
  forall off e, -2147483648 <= off < 2147483648 -> 0 <= de_line e < 2 ^ 64 -> 0 <= de_col e < 2 ^ 64 -> zlen (de_file e) = 512 ->
    fromfile dbg_new (dump_entry (off, e)) = UB.
Proof.
  intros off e H1 H2 H3 H4. unfold fromfile, dump_entry. rewrite H4. change (wrap16 512) with 512.
  assert (EF : firstn (Z.to_nat 512) (de_file e) = de_file e) by (rewrite firstn_all2 by (unfold zlen in H4; lia); auto). rewrite EF.
  set (f := le 4 off ++ _). generalize (length f) as n. intro n. cbn [load_entries].
  assert (LF : length f = (22 + length (de_file e))%nat) by (unfold f; rewrite !app_length, !le_length; lia).
  replace (zlen f <? 22) with false by (unfold zlen; lia).
  assert (K4 : skipn 4 f = le 8 (de_line e) ++ le 8 (de_col e) ++ le 2 512 ++ de_file e) by (unfold f; apply skipn_app_exact; apply le_length).
  assert (K12 : skipn 12 f = le 8 (de_col e) ++ le 2 512 ++ de_file e).
  { change 12%nat with (4 + 8)%nat. rewrite <- skipn_skipn_add, K4. apply skipn_app_exact, le_length. }
  assert (K20 : skipn 20 f = le 2 512 ++ de_file e).
  { change 20%nat with (12 + 8)%nat. rewrite <- skipn_skipn_add, K12. apply skipn_app_exact, le_length. }
  assert (K22 : skipn 22 f = de_file e).
  { change 22%nat with (20 + 2)%nat. rewrite <- skipn_skipn_add, K20. apply skipn_app_exact, le_length. }
  rewrite K20, K22, (firstn_app_exact 2 (le 2 512)) by apply le_length. change (unle (le 2 512)) with 512. cbv zeta. rewrite H4. cbn [Z.ltb Z.compare Pos.compare Pos.compare_cont Z.eqb Pos.eqb bind]. reflexivity.
Qed.
Print Assumptions C74_long_name_refuted.
Example C74_long_name_saved :
  let e := mkDe 1 1 (repeat 97 512) in
  fst (tofile (record_all [(0, e)])) = dump_entry (0, e) /\ zlen (de_file e) = 512.
Proof. vm_compute. auto. Qed.
(** Loading keeps what was there (buzzdebug.h 66-72 says the structure is erased first), and saving
    returns 0 (buzzdebug.h 76-82 says 1 if there is no error). *)
Theorem C74_load_erases_refuted :
  exists d recs d', fromfile d (fst (tofile (record_all recs))) = Ok (d', 1) /\ from_offset (record_all recs) 30 = None /\ from_offset d' 30 = Some (mkDe 9 9 (bs "old.bzz")).
Proof. exists (record_all [(30, mkDe 9 9 (bs "old.bzz"))]), demo_recs. eexists. split; [vm_compute; reflexivity|]. split; vm_compute; reflexivity. Qed.
Print Assumptions C74_load_erases_refuted.
Theorem C74_save_result_refuted : forall d, snd (tofile d) = 0.
Proof. reflexivity. Qed.
Print Assumptions C74_save_result_refuted.
Example C76_nontrivial :
  breakpoints dbg_new = [] /\
  match continue_ [] no_pow two_pushes 12 dbg_new 20 vm0 with Ok v => v_state v = S_DONE /\ stack v = [OInt 7; OInt 5] | _ => False end.
Proof. vm_compute. auto. Qed.
