(** Theorems about the iteration functions and the functions on types: C50, C79. *)
From Coq Require Import String.
From Verif Require Import Base ListLemmas Float Dict DictProofs PDict PDictKeys Strman StrmanSpec Obj ObjSpec ObjProofs Instr Vm VmSpec VmProofs VmFrames Text Strlib CFunSpec CFunProofs
  PropsVm PropsVmFrames PropsVmData PropsStrlib TableLib TableLibSpec TableLibProofs.
Local Open Scope Z_scope.
Local Open Scope list_scope.

(** ** The entries of a table *)

(** No two of the entries have the same key. *)
Definition all_different (es : list (obj * obj)) : Prop :=
  ForallOrdPairs (fun e e' => same_key (fst e) (fst e') = false) es.

Lemma entry_key fl sidof t k x : built (key_class fl sidof) t -> In (k, x) (pentries t) -> key_class fl sidof k = true.
Proof. intros HB HI. pose proof (built_twf _ _ _ HB) as (_ & _ & HK). unfold tab_keys in HK. rewrite Forall_forall in HK. exact (HK _ HI). Qed.

(** The entries the iteration functions go through are what reading the table by its keys
    shows: each key once, with its value.  (Keys: of the classes of C18.) *)
Theorem C50_entries :
  forall fl sidof t, built (key_class fl sidof) t ->
    (forall k x, In (k, x) (pentries t) -> key_class fl sidof k = true /\ tab_get t k = Ok (Some x)) /\
    (forall k x, key_class fl sidof k = true -> tab_get t k = Ok (Some x) -> exists k', In (k', x) (pentries t) /\ same_key k k' = true) /\
    all_different (pentries t).
Proof.
  intros fl sidof t HB. pose proof (good_class fl sidof) as G. pose proof (built_twf _ _ _ HB) as HT. pose proof (good_k _ _ _ G) as GK.
  pose proof HT as (Hz & HW & HK).
  assert (HK' : forall e, In e (pentries t) -> key_class fl sidof (fst e) = true) by (apply Forall_forall; exact HK).
  split; [|split].
  - intros k x HI. assert (Hk := HK' _ HI). cbn in Hk. split; [exact Hk|]. unfold tab_get. rewrite (rget_pget _ _ _ G) by auto. f_equal.
    apply (get_in _ _ _ GK); auto. exists k. split; auto. apply (proj1 (proj1 GK)).
  - intros k x Hk H. unfold tab_get in H. rewrite (rget_pget _ _ _ G) in H by auto. inversion H as [H1].
    apply (get_in _ _ _ GK) in H1 as (k' & HI & HE); auto. exists k'. split; auto. rewrite (keqb_in _ _ _ G) in HE; auto. exact (HK' _ HI).
  - pose proof (entries_nodup _ _ _ HW) as HN. unfold all_different. revert HN HK'. generalize (pentries t) as es. clear - G.
    induction es as [|e es IH]; intros HN HK'; constructor.
    + destruct HN as [HN _]. apply Forall_forall. intros e' He'. rewrite <- (keqb_in _ _ _ G); [auto|apply HK'; left; auto|apply HK'; right; auto].
    + apply IH; [apply HN|]. intros; apply HK'; right; auto.
Qed.
Print Assumptions C50_entries.
Definition two_entries : table := match tab_history tab_new [TabSet (OInt 1) (OInt 10); TabSet (OInt 11) (OInt 20)] with Ok t => t | _ => [] end.
Example C50_entries_nontrivial : built (key_class false zlen) two_entries /\ pentries two_entries = [(OInt 1, OInt 10); (OInt 11, OInt 20)].
Proof. split; [|reflexivity]. exists [TabSet (OInt 1) (OInt 10); TabSet (OInt 11) (OInt 20)]. split; [repeat constructor|reflexivity]. Qed.

(** ** foreach *)
Section Start.
Context {X : Type}.
Implicit Types v : vm X.

Lemma start_ok v args a c ra s rest L K : called v (OTab a :: c :: args) ra s rest L -> otype c = T_CLOSURE ->
  table_and_closure v K = K (push (push v (OTab a)) c) a c.
Proof.
  intros HC Hc. call_start HC. unfold table_and_closure.
  rewrite (lload_ok v _ L 1 (OTab a) HL ltac:(lia) eq_refl). cbn [bind]. unfold type_assert. rewrite ?top_push. cbn [bind].
  change (otype (OTab a) =? T_TABLE) with true. cbv iota.
  rewrite (lload_ok (push v (OTab a)) _ L 2 c HL ltac:(lia) eq_refl). cbn [bind]. rewrite ?top_push. cbn [bind]. rewrite Hc, Z.eqb_refl. reflexivity.
Qed.
Lemma start_frame v args ra s rest L a c : called v args ra s rest L ->
  exists lsy, frame_is [c; OTab a] ra s rest lsy L (push (push v (OTab a)) c).
Proof. intro HC. call_start HC. eexists. split; [|cbn; exact HL]. cbn. unfold stack. cbn. rewrite HS. reflexivity. Qed.

Lemma ret_to_world v r v' : ret_to v r = Ok v' -> v_state v' = S_READY -> same_world v v' /\ v_state v = S_READY.
Proof.
  unfold ret_to, stack_assert, type_assert, stack_at. intros H HR. brk H; inversion H; subst; try discriminate. repeat split; auto.
Qed.
Lemma pop_lsyms_world v v1 : pop_lsyms v = Ok v1 -> same_world v v1 /\ v_state v1 = v_state v.
Proof. unfold pop_lsyms. intro H. destruct (v_lsymts v) as [|ls t]; inversion H. destruct (ls_swarm ls); repeat split. Qed.
Lemma ret0_world v v' : vm_ret0 v = Ok v' -> v_state v' = S_READY -> same_world v v' /\ v_state v = S_READY.
Proof.
  unfold vm_ret0. intros H HR. destruct (pop_lsyms v) as [v1| | |] eqn:E1; cbn [bind] in H; try discriminate.
  destruct (pop_stacks v1) as [v2| | |] eqn:E2; cbn [bind] in H; try discriminate.
  apply pop_lsyms_world in E1 as (W1 & S1). apply pop_stacks_inv in E2 as (top & s & rest & HS2 & ->).
  apply ret_to_world in H as (W2 & S2); auto. cbn in S2. split; [|congruence].
  destruct W1 as (A1 & A2 & A3 & A4), W2 as (B1 & B2 & B3 & B4). cbn in *. repeat split; congruence.
Qed.
Lemma ret1_world v v' : vm_ret1 v = Ok v' -> v_state v' = S_READY -> same_world v v' /\ v_state v = S_READY.
Proof.
  unfold vm_ret1, stack_assert. intros H HR. destruct (pop_lsyms v) as [v1| | |] eqn:E1; cbn [bind] in H; try discriminate.
  destruct (_ <? 0); [inversion H; subst; discriminate|]. destruct (stack v1) as [|r t] eqn:ES; [discriminate|].
  destruct (pop_stacks v1) as [v2| | |] eqn:E2; cbn [bind] in H; try discriminate.
  apply pop_lsyms_world in E1 as (W1 & S1). apply pop_stacks_inv in E2 as (top & s & rest & HS2 & ->).
  apply ret_to_world in H as (W2 & S2); auto. cbn in S2. split; [|congruence].
  destruct W1 as (A1 & A2 & A3 & A4), W2 as (B1 & B2 & B3 & B4). cbn in *. repeat split; congruence.
Qed.
Lemma ret0_end v v' st ra s rest lsy L : vm_ret0 v = Ok v' -> v_state v' = S_READY -> frame_is st ra s rest lsy L v ->
  v_stacks v' = (ONil :: s) :: rest /\ v_lsymts v' = L /\ v_pc v' = ra.
Proof.
  intros H HR [F1 F2]. destruct (ret0_inv v v' H HR) as (top & ra' & s' & rest' & ls' & E1 & E2 & E3 & E4).
  rewrite F1 in E1. inversion E1; subst. rewrite F2 in E2. inversion E2. auto.
Qed.
Lemma ret1_end v v' r st ra s rest lsy L : vm_ret1 v = Ok v' -> v_state v' = S_READY -> frame_is (r :: st) ra s rest lsy L v ->
  v_stacks v' = (r :: s) :: rest /\ v_lsymts v' = L /\ v_pc v' = ra.
Proof.
  intros H HR [F1 F2]. destruct (ret1_inv v v' H HR) as (r' & t' & ra' & s' & rest' & ls' & E1 & E2 & E3 & E4).
  rewrite F1 in E1. inversion E1; subst. rewrite F2 in E2. inversion E2. auto.
Qed.
End Start.

Section Runs.
Context {X : Type}.
Variable flist : list (vm X -> res (vm X)).
Variable powf : libm.
Variable code : Z -> Z.
Variable size : Z.
Implicit Types v w : vm X.
Lemma same_world_trans v w z : same_world v w -> same_world w z -> same_world v z.
Proof. intros (A1 & A2 & A3 & A4) (B1 & B2 & B3 & B4). repeat split; congruence. Qed.
Lemma runs_end ref act bt v l z z' : runs flist powf code size ref act bt v l z -> same_world z z' -> runs flist powf code size ref act bt v l z'.
Proof. induction 1; intro HE; econstructor; eauto using same_world_trans. Qed.
Lemma runs_start ref act bt v0 v l z : same_world v0 v -> runs flist powf code size ref act bt v l z -> runs flist powf code size ref act bt v0 l z.
Proof.
  intros HE H. destruct H as [v w H|v args r w w' l z (v1 & A & B & C) H1 H2]; econstructor; eauto using same_world_trans.
  exists v1. eauto using same_world_trans.
Qed.
End Runs.

(** foreach(t, f) calls f once for each entry of the table, with the key and the value, one call after the
    other, and returns nil: when f does not change the table. *)
Theorem C50_foreach :
  forall X flist powf code size fuel (v v' : vm X) a t ref act ra s rest L,
    Forall c_function_ok flist ->
    called v [OTab a; OClos true ref act] ra s rest L -> table_of v a = Some t ->
    keeps flist powf code size ref act a ->
    obj_foreach flist powf code size fuel v = Ok v' -> v_state v' = S_READY ->
    (exists rs, length rs = length (pentries t) /\
       runs flist powf code size ref act same_world v (entry_calls (pentries t) rs) v') /\
    v_stacks v' = (ONil :: s) :: rest /\ v_lsymts v' = L /\ v_pc v' = ra.
Proof.
  intros X flist powf code size fuel v v' a t ref act ra s rest L HF HC HT HK H HR.
  destruct (start_frame v _ ra s rest L a (OClos true ref act) HC) as (lsy & F).
  unfold obj_foreach, lnum_assert in H. rewrite (fun K => start_ok v _ a _ ra s rest L K HC eq_refl) in H.
  call_start HC. rewrite (lnum_ok _ _ _ HL) in H. cbn [bind] in H. change (zlen (self :: [OTab a; OClos true ref act]) - 1 =? 2) with true in H. cbv iota in H.
  set (v1 := push (push v (OTab a)) (OClos true ref act)) in *.
  destruct (walk fuel a _ 0 0 v1) as [v2| | |] eqn:EW; cbn [bind] in H; try discriminate.
  pose proof (ret0_world _ _ H HR) as (W & HR2).
  assert (HSt : forall w k x, v_state w <> S_READY -> foreach_entry flist powf code size fuel (OClos true ref act) w k x = Ok w)
    by (intros w k x Hw; unfold foreach_entry; destruct (v_state w); try congruence; reflexivity).
  destruct (walk_each code size a t (foreach_entry flist powf code size fuel (OClos true ref act)) (fun w => frame_is [OClos true ref act; OTab a] ra s rest lsy L w)
    (fun v k x z => exists r w, executed flist powf code size ref act v [k; x] r w /\ same_world w z) HSt) with (n := fuel) (i := 0%nat) (j := 0%nat) (v := v1) (v' := v2) as (A & B & C); auto.
  - intros w k x w1 S1 F1 T1 I1 E1 R1.
    destruct (foreach_entry_ok flist powf code size fuel HF ref act w k x w1 _ _ _ _ _ _ S1 F1 E1 R1) as (r & w2 & P1 & P2 & P3).
    split; [eauto|]. split; [exact P3|]. rewrite (table_world _ _ _ P2). eapply HK; eauto.
  - rewrite todo_start in A. destruct (runs_each flist powf code size ref act same_world _ (fun _ _ _ _ Q => Q) _ _ _ A) as (rs & E & Q).
    split; [exists rs; split; [exact E|]|].
    + eapply runs_end; [|exact W]. eapply runs_start; [|exact Q]. repeat split.
    + exact (ret0_end _ _ _ _ _ _ _ _ H HR B).
Qed.
Print Assumptions C50_foreach.

(** ** reduce *)
(** reduce(t, f, x) calls f once for each entry with the key, the value and the result of the call
    before (x the first time), and returns the result of the last call. *)
Theorem C50_reduce :
  forall X flist powf code size fuel (v v' : vm X) a t ref act x0 ra s rest L,
    Forall c_function_ok flist ->
    called v [OTab a; OClos true ref act; x0] ra s rest L -> table_of v a = Some t ->
    keeps flist powf code size ref act a ->
    obj_reduce flist powf code size fuel v = Ok v' -> v_state v' = S_READY ->
    exists rs, length rs = length (pentries t) /\
      runs flist powf code size ref act same_world v (fold_calls (pentries t) x0 rs) v' /\
      v_stacks v' = (last rs x0 :: s) :: rest /\ v_lsymts v' = L /\ v_pc v' = ra.
Proof.
  intros X flist powf code size fuel v v' a t ref act x0 ra s rest L HF HC HT HK H HR.
  destruct (start_frame v _ ra s rest L a (OClos true ref act) HC) as (lsy & F).
  unfold obj_reduce, lnum_assert in H. rewrite (fun K => start_ok v _ a _ ra s rest L K HC eq_refl) in H.
  call_start HC. rewrite (lnum_ok _ _ _ HL) in H. cbn [bind] in H. change (zlen (self :: [OTab a; OClos true ref act; x0]) - 1 =? 3) with true in H. cbv iota in H.
  set (v1 := push (push v (OTab a)) (OClos true ref act)) in *.
  rewrite (lload_ok v1 _ L 3 x0 HL ltac:(lia) eq_refl) in H. cbn [bind] in H.
  destruct (walk fuel a _ 0 0 (push v1 x0)) as [v2| | |] eqn:EW; cbn [bind] in H; try discriminate.
  pose proof (ret1_world _ _ H HR) as (W & HR2).
  set (fr := fun acc (w : vm X) => frame_is (acc :: [OClos true ref act; OTab a]) ra s rest lsy L w).
  assert (HSt : forall w k x, v_state w <> S_READY -> reduce_entry flist powf code size fuel (OClos true ref act) w k x = Ok w)
    by (intros w k x Hw; unfold reduce_entry; destruct (v_state w); try congruence; reflexivity).
  destruct (walk_each code size a t (reduce_entry flist powf code size fuel (OClos true ref act)) (fun w => exists acc, fr acc w)
    (fun v k x z => exists acc r, fr acc v /\ executed flist powf code size ref act v [k; x; acc] r z /\ fr r z) HSt) with (n := fuel) (i := 0%nat) (j := 0%nat) (v := push v1 x0) (v' := v2) as (A & (acc & B) & C); auto.
  - intros w k x w1 S1 (acc & F1) T1 I1 E1 R1.
    destruct (reduce_entry_ok flist powf code size fuel HF ref act w k x w1 _ _ _ _ _ _ _ S1 F1 E1 R1) as (r & P1 & P2).
    split; [eauto 6|]. split; [exists r; exact P2|]. eapply HK; eauto.
  - exists x0. destruct F as [F1 F2]. split; [|exact F2]. cbn. unfold stack. cbn. cbn in F1. rewrite HS in *. cbn. inversion F1. reflexivity.
  - rewrite todo_start in A.
    assert (F0 : fr x0 (push v1 x0)). { destruct F as [F1 F2]. split; [|exact F2]. cbn. unfold stack. cbn. rewrite HS. reflexivity. }
    assert (HG : exists rs, length rs = length (pentries t) /\ runs flist powf code size ref act same_world (push v1 x0) (fold_calls (pentries t) x0 rs) v2 /\ fr (last rs x0) v2).
    { clear - A F0. revert F0. revert A. generalize (push v1 x0) as w. intros w A. generalize x0 as y. revert A. generalize (pentries t) as es. intros es A.
      induction A as [w|w k x w1 l z (acc & r & P1 & P2 & P3) A IH]; intros y Fy.
      - exists []. split; [reflexivity|]. split; [constructor; repeat split|exact Fy].
      - destruct P1 as [P1 _], Fy as [Fy _]. rewrite Fy in P1. inversion P1; subst acc.
        destruct (IH r P3) as (rs & E1 & E2 & E3). exists (r :: rs). split; [cbn; lia|]. split.
        + cbn [fold_calls fst snd]. econstructor; [exact P2|apply same_world_refl|exact E2].
        + assert (EL : last (r :: rs) y = last rs r). { clear. revert r. induction rs as [|q rs IH]; intro r; [reflexivity|]. cbn in *. destruct rs; auto. }
          rewrite EL. exact E3. }
    destruct HG as (rs & E1 & E2 & E3). exists rs. split; [exact E1|]. split.
    + eapply runs_end; [|exact W]. eapply runs_start; [|exact E2]. repeat split.
    + exact (ret1_end _ _ _ _ _ _ _ _ _ H HR E3).
Qed.
Print Assumptions C50_reduce.

(** ** map and filter *)
(** The result for one entry: what the operation puts there. *)
Definition op_val (o : option tab_op) : option obj := match o with Some (TabSet _ y) => Some y | _ => None end.
Definition opt_list {A} (o : option A) : list A := match o with Some a => [a] | None => [] end.
Fixpoint ops_of (opf : obj -> obj -> obj -> option tab_op) (es : list (obj * obj)) (rs : list obj) : list tab_op :=
  match es, rs with
  | e :: es', r :: rs' => opt_list (opf (fst e) (snd e) r) ++ ops_of opf es' rs'
  | _, _ => []
  end.

Lemma op_step fl sidof tb o k tb1 : let P := key_class fl sidof in twf table_hash P tb -> P k = true ->
  (forall o', o = Some o' -> tab_op_key o' = k) -> tab_history tb (opt_list o) = Ok tb1 ->
  twf table_hash P tb1 /\ (tab_get tb k = Ok None -> tab_get tb1 k = Ok (op_val o)) /\
  (forall k', P k' = true -> same_key k k' = false -> tab_get tb1 k' = tab_get tb k').
Proof.
  intros P HT Hk HO H. pose proof (good_class fl sidof) as G.
  destruct o as [[k0 y|k0]|]; cbn [opt_list tab_history op_val] in *.
  - specialize (HO _ eq_refl). cbn in HO. subst k0.
    destruct (tab_set tb k y) as [tb2| | |] eqn:E; cbn [bind] in H; try discriminate. inversion H; subst tb2. unfold tab_set in E. unfold tab_get.
    destruct (tab_set_get _ _ _ G tb k y k HT Hk Hk) as (t1 & E1 & W & r & _ & ER). rewrite E in E1. inversion E1; subst t1.
    split; [exact W|]. split. { intros _. rewrite ER. assert (Es : same_key k k = true) by (apply (gc_eqv _ _ _ G)|| apply G; auto). rewrite Es. reflexivity. }
    intros k' Hk' HE. destruct (tab_set_get _ _ _ G tb k y k' HT Hk Hk') as (t1 & E2 & _ & r' & Er & ER'). rewrite E in E2. inversion E2; subst t1.
    rewrite ER', Er, HE. reflexivity.
  - specialize (HO _ eq_refl). cbn in HO. subst k0.
    destruct (tab_remove tb k) as [tb2| | |] eqn:E; cbn [bind] in H; try discriminate. inversion H; subst tb2. unfold tab_remove in E. unfold tab_get.
    destruct (tab_remove_get _ _ _ G tb k k HT Hk Hk) as (t1 & E1 & W & r & _ & ER). rewrite E in E1. inversion E1; subst t1.
    split; [exact W|]. split. { intros _. rewrite ER. assert (Es : same_key k k = true) by (apply (gc_eqv _ _ _ G)|| apply G; auto). rewrite Es. reflexivity. }
    intros k' Hk' HE. destruct (tab_remove_get _ _ _ G tb k k' HT Hk Hk') as (t1 & E2 & _ & r' & Er & ER'). rewrite E in E2. inversion E2; subst t1.
    rewrite ER', Er, HE. reflexivity.
  - inversion H; subst. auto.
Qed.
Lemma same_key_sym fl sidof a b : key_class fl sidof a = true -> key_class fl sidof b = true -> same_key a b = same_key b a.
Proof.
  intros Ha Hb. pose proof (good_class fl sidof) as G. pose proof (good_k _ _ _ G) as GK.
  rewrite <- !(keqb_in _ _ _ G) by auto. apply (proj1 (proj2 (proj1 GK))).
Qed.

Lemma build_ok fl sidof opf : let P := key_class fl sidof in
  (forall k x r o, opf k x r = Some o -> tab_op_key o = k) ->
  forall es rs tb tb', twf table_hash P tb -> length rs = length es -> (forall e, In e es -> P (fst e) = true) -> all_different es ->
  tab_history tb (ops_of opf es rs) = Ok tb' ->
  (forall i k x r, nth_error es i = Some (k, x) -> nth_error rs i = Some r -> tab_get tb k = Ok None -> tab_get tb' k = Ok (op_val (opf k x r))) /\
  (forall k, P k = true -> (forall e, In e es -> same_key (fst e) k = false) -> tab_get tb' k = tab_get tb k).
Proof.
  intros P HO. induction es as [|[k x] es IH]; intros [|r rs] tb tb' HT HL HK HD H; cbn [length] in HL; try discriminate; cbn [ops_of fst snd] in H.
  - inversion H; subst. split; [intros [|i] ? ? ? E; discriminate|auto].
  - rewrite history_app in H. destruct (tab_history tb (opt_list (opf k x r))) as [tb1| | |] eqn:E1; cbn [bind] in H; try discriminate.
    assert (Hk : P k = true) by (apply (HK (k, x)); left; auto).
    destruct (op_step fl sidof tb (opf k x r) k tb1 HT Hk (HO k x r) E1) as (W1 & W2 & W3).
    inversion HD as [|? ? HD1 HD2]; subst. rewrite Forall_forall in HD1.
    assert (HK2 : forall e, In e es -> P (fst e) = true) by (intros; apply HK; right; auto).
    destruct (IH rs tb1 tb' W1 ltac:(lia) HK2 HD2 H) as (I1 & I2). split.
    + intros [|i] k' x' r' Ee Er HN; cbn in Ee, Er.
      * inversion Ee; subst. inversion Er; subst. rewrite I2; auto. intros e He. rewrite (same_key_sym fl sidof) by (auto; apply HK2; auto). apply HD1. auto.
      * pose proof (nth_error_In _ _ Ee) as Hin. eapply I1; eauto. rewrite W3; auto; [apply (HK2 _ Hin)|apply (HD1 _ Hin)].
    + intros k' Hk' HE. rewrite I2; auto. apply W3; auto. apply (HE (k, x)). left; auto. intros; apply HE; right; auto.
Qed.

Section Build.
Context {X : Type}.
Variable flist : list (vm X -> res (vm X)).
Variable powf : libm.
Variable code : Z -> Z.
Variable size : Z.
Implicit Types v w : vm X.
Definition building ref act b (opf : obj -> obj -> obj -> option tab_op) v k x z : Prop :=
  exists r w tb tb', executed flist powf code size ref act v [k; x] r w /\ same_world_but b w z /\
    table_of v b = Some tb /\ table_of z b = Some tb' /\ stored_as (opf k x r) tb tb'.
Lemma each_built ref act b opf v es z : each (building ref act b opf) v es z ->
  exists rs, length rs = length es /\ runs flist powf code size ref act (same_world_but b) v (entry_calls es rs) z /\
    forall tb, table_of v b = Some tb -> exists tb', table_of z b = Some tb' /\ tab_history tb (ops_of opf es rs) = Ok tb'.
Proof.
  induction 1 as [v|v k x w l z (r & w1 & tb & tb' & A1 & A2 & A3 & A4 & A5) H (rs & E1 & E2 & E3)].
  - exists []. split; [reflexivity|]. split; [constructor; repeat split|]. intros tb Ht. exists tb. auto.
  - exists (r :: rs). split; [cbn; lia|]. split; [unfold entry_calls; cbn; econstructor; eauto|].
    intros tb0 Ht. rewrite A3 in Ht. inversion Ht; subst tb0. destruct (E3 _ A4) as (tb2 & T1 & T2). exists tb2. split; [exact T1|].
    cbn [ops_of fst snd]. rewrite history_app. unfold stored_as in A5. destruct (opf k x r) as [o|]; cbn [opt_list].
    + rewrite A5. exact T2.
    + cbn. subst tb'. exact T2.
Qed.
End Build.

Lemma absent_key fl sidof t k : built (key_class fl sidof) t -> key_class fl sidof k = true -> tab_get t k = Ok None ->
  forall e, In e (pentries t) -> same_key (fst e) k = false.
Proof.
  intros HB Hk HN e He. pose proof (good_class fl sidof) as G. pose proof (built_twf _ _ _ HB) as HT. pose proof (good_k _ _ _ G) as GK.
  pose proof HT as (Hz & HW & HKs). unfold tab_get in HN. rewrite (rget_pget _ _ _ G) in HN by auto. inversion HN as [HN'].
  assert (Hf : key_class fl sidof (fst e) = true). { unfold tab_keys in HKs. rewrite Forall_forall in HKs. auto. }
  apply (get_none _ _ _ GK) with (e := e) in HN'; auto. rewrite (same_key_sym fl sidof) by auto. rewrite <- (keqb_in _ _ _ G); auto.
Qed.
Lemma new_get fl sidof k : key_class fl sidof k = true -> tab_get tab_new k = Ok None.
Proof.
  intro Hk. pose proof (good_class fl sidof) as G. unfold tab_get, tab_new. rewrite (rget_pget _ _ _ G); auto; [|apply (twf_new _ _ _ G)].
  f_equal. apply (get_new _ _ _ (good_k _ _ _ G)). lia.
Qed.

(** map(t, f) calls f once for each entry and returns a new table that has, under each key of t, the
    result of the call for that key (nothing when it was nil), and no other keys. *)
Theorem C50_map :
  forall X flist powf code size fuel (v v' : vm X) fl sidof a t ref act ra s rest L,
    let b := zlen (v_heap v) in
    Forall c_function_ok flist ->
    called v [OTab a; OClos true ref act] ra s rest L -> table_of v a = Some t -> built (key_class fl sidof) t ->
    keeps flist powf code size ref act a -> keeps flist powf code size ref act b ->
    obj_map flist powf code size fuel v = Ok v' -> v_state v' = S_READY ->
    exists rs tb, length rs = length (pentries t) /\
      runs flist powf code size ref act (same_world_but b) (set_heap v (v_heap v ++ [tab_new])) (entry_calls (pentries t) rs) v' /\
      v_stacks v' = (OTab b :: s) :: rest /\ v_lsymts v' = L /\ v_pc v' = ra /\
      table_of v' a = Some t /\ table_of v' b = Some tb /\
      (forall i k x r, nth_error (pentries t) i = Some (k, x) -> nth_error rs i = Some r -> tab_get tb k = Ok (contents r)) /\
      (forall k, key_class fl sidof k = true -> tab_get t k = Ok None -> tab_get tb k = Ok None).
Proof.
  intros X flist powf code size fuel v v' fl sidof a t ref act ra s rest L b HF HC HT HB HKa HKb H HR.
  destruct (start_frame v _ ra s rest L a (OClos true ref act) HC) as (lsy & F).
  unfold obj_map, lnum_assert in H. rewrite (fun K => start_ok v _ a _ ra s rest L K HC eq_refl) in H.
  call_start HC. rewrite (lnum_ok _ _ _ HL) in H. cbn [bind] in H. change (zlen (self :: [OTab a; OClos true ref act]) - 1 =? 2) with true in H. cbv iota in H.
  set (v1 := push (push v (OTab a)) (OClos true ref act)) in *.
  change (zlen (v_heap v1)) with b in H.
  destruct (walk fuel a _ 0 0 (vm_pusht v1)) as [v2| | |] eqn:EW; cbn [bind] in H; try discriminate.
  pose proof (ret1_world _ _ H HR) as (W & HR2).
  assert (Hb : 0 <= b) by (unfold b, zlen; lia).
  assert (Hlt : (Z.to_nat a < Z.to_nat b)%nat). { unfold b, zlen. rewrite Nat2Z.id. apply nth_error_Some. unfold table_of in HT. congruence. }
  assert (HTb : table_of (vm_pusht v1) b = Some tab_new).
  { unfold table_of. cbn. unfold b, zlen. rewrite Nat2Z.id, nth_error_app2, Nat.sub_diag by lia. reflexivity. }
  assert (HTa : table_of (vm_pusht v1) a = Some t).
  { unfold table_of. cbn. rewrite nth_error_app1; [exact HT|]. unfold b, zlen in Hlt. rewrite Nat2Z.id in Hlt. exact Hlt. }
  assert (HSt : forall w k x, v_state w <> S_READY -> map_entry flist powf code size fuel a b (OClos true ref act) w k x = Ok w)
    by (intros w k x Hw; unfold map_entry; destruct (v_state w); try congruence; reflexivity).
  destruct (walk_each code size a t (map_entry flist powf code size fuel a b (OClos true ref act))
    (fun w => frame_is [OTab b; OClos true ref act; OTab a] ra s rest lsy L w /\ exists tb, table_of w b = Some tb)
    (building flist powf code size ref act b (fun (k _ r : obj) => Some (map_op k r))) HSt) with (n := fuel) (i := 0%nat) (j := 0%nat) (v := vm_pusht v1) (v' := v2) as (A & (B & tb & HTb2) & C); auto.
  - intros w k x w1 S1 (F1 & tb & Tb) T1 I1 E1 R1.
    destruct (map_entry_ok flist powf code size fuel HF a b ref act w k x w1 _ _ _ _ _ _ _ S1 F1 Hb HKb Tb E1 R1) as (r & w2 & tb' & P1 & P2 & P3 & P4 & P5).
    split; [exists r, w2, tb, tb'; auto|]. split; [split; [exact P3|exists tb'; exact P4]|].
    unfold table_of. rewrite (proj1 P2) by lia. eapply HKa; eauto.
  - split; [|eauto]. destruct F as [F1 F2]. split; [|exact F2]. cbn. unfold stack. cbn. rewrite HS. reflexivity.
  - rewrite todo_start in A. destruct (each_built _ _ _ _ _ _ _ _ _ _ _ A) as (rs & E1 & E2 & E3).
    destruct (E3 _ HTb) as (tb' & T1 & T2). rewrite T1 in HTb2. inversion HTb2; subst tb'.
    pose proof (C50_entries fl sidof t HB) as (K1 & _ & K3).
    assert (HO : forall k x r o, (fun (k _ r : obj) => Some (map_op k r)) k x r = Some o -> tab_op_key o = k).
    { intros k x r o HO. unfold map_op, filter_op in HO. brk HO; inversion HO; reflexivity. }
    destruct (build_ok fl sidof (fun (k _ r : obj) => Some (map_op k r)) HO (pentries t) rs tab_new tb (twf_new _ _ _ (good_class fl sidof)) E1) as (Q1 & Q2); auto.
    { intros [k x] He. apply (K1 k x He). }
    exists rs, tb. split; [exact E1|]. split.
    { eapply runs_end; [|exact W]. eapply runs_start; [|exact E2]. repeat split. }
    destruct (ret1_end _ _ _ _ _ _ _ _ _ H HR B) as (Y1 & Y2 & Y3).
    split; [exact Y1|]. split; [exact Y2|]. split; [exact Y3|].
    split; [rewrite (table_world _ _ _ W); exact C|]. split; [rewrite (table_world _ _ _ W); exact T1|]. split.
    + intros i k x r Ei Er. pose proof (K1 k x (nth_error_In _ _ Ei)) as (Kk & _).
      rewrite (Q1 i k x r Ei Er (new_get fl sidof k Kk)). f_equal. unfold map_op, filter_op. try (destruct (truthy r); reflexivity); destruct r; reflexivity.
    + intros k Hk HN. rewrite (Q2 k Hk (absent_key fl sidof t k HB Hk HN)). apply (new_get fl sidof). exact Hk.
Qed.
Print Assumptions C50_map.

(** filter(t, f) calls f once for each entry and returns a new table with those entries of t for which the
    call gave a true value, and no other keys. *)
Theorem C50_filter :
  forall X flist powf code size fuel (v v' : vm X) fl sidof a t ref act ra s rest L,
    let b := zlen (v_heap v) in
    Forall c_function_ok flist ->
    called v [OTab a; OClos true ref act] ra s rest L -> table_of v a = Some t -> built (key_class fl sidof) t ->
    keeps flist powf code size ref act a -> keeps flist powf code size ref act b ->
    obj_filter flist powf code size fuel v = Ok v' -> v_state v' = S_READY ->
    exists rs tb, length rs = length (pentries t) /\
      runs flist powf code size ref act (same_world_but b) (set_heap v (v_heap v ++ [tab_new])) (entry_calls (pentries t) rs) v' /\
      v_stacks v' = (OTab b :: s) :: rest /\ v_lsymts v' = L /\ v_pc v' = ra /\
      table_of v' a = Some t /\ table_of v' b = Some tb /\
      (forall i k x r, nth_error (pentries t) i = Some (k, x) -> nth_error rs i = Some r -> tab_get tb k = Ok (if truthy r then Some x else None)) /\
      (forall k, key_class fl sidof k = true -> tab_get t k = Ok None -> tab_get tb k = Ok None).
Proof.
  intros X flist powf code size fuel v v' fl sidof a t ref act ra s rest L b HF HC HT HB HKa HKb H HR.
  destruct (start_frame v _ ra s rest L a (OClos true ref act) HC) as (lsy & F).
  unfold obj_filter, lnum_assert in H. rewrite (fun K => start_ok v _ a _ ra s rest L K HC eq_refl) in H.
  call_start HC. rewrite (lnum_ok _ _ _ HL) in H. cbn [bind] in H. change (zlen (self :: [OTab a; OClos true ref act]) - 1 =? 2) with true in H. cbv iota in H.
  set (v1 := push (push v (OTab a)) (OClos true ref act)) in *.
  change (zlen (v_heap v1)) with b in H.
  destruct (walk fuel a _ 0 0 (vm_pusht v1)) as [v2| | |] eqn:EW; cbn [bind] in H; try discriminate.
  pose proof (ret1_world _ _ H HR) as (W & HR2).
  assert (Hb : 0 <= b) by (unfold b, zlen; lia).
  assert (Hlt : (Z.to_nat a < Z.to_nat b)%nat). { unfold b, zlen. rewrite Nat2Z.id. apply nth_error_Some. unfold table_of in HT. congruence. }
  assert (HTb : table_of (vm_pusht v1) b = Some tab_new).
  { unfold table_of. cbn. unfold b, zlen. rewrite Nat2Z.id, nth_error_app2, Nat.sub_diag by lia. reflexivity. }
  assert (HTa : table_of (vm_pusht v1) a = Some t).
  { unfold table_of. cbn. rewrite nth_error_app1; [exact HT|]. unfold b, zlen in Hlt. rewrite Nat2Z.id in Hlt. exact Hlt. }
  assert (HSt : forall w k x, v_state w <> S_READY -> filter_entry flist powf code size fuel a b (OClos true ref act) w k x = Ok w)
    by (intros w k x Hw; unfold filter_entry; destruct (v_state w); try congruence; reflexivity).
  destruct (walk_each code size a t (filter_entry flist powf code size fuel a b (OClos true ref act))
    (fun w => frame_is [OTab b; OClos true ref act; OTab a] ra s rest lsy L w /\ exists tb, table_of w b = Some tb)
    (building flist powf code size ref act b (filter_op)) HSt) with (n := fuel) (i := 0%nat) (j := 0%nat) (v := vm_pusht v1) (v' := v2) as (A & (B & tb & HTb2) & C); auto.
  - intros w k x w1 S1 (F1 & tb & Tb) T1 I1 E1 R1.
    destruct (filter_entry_ok flist powf code size fuel HF a b ref act w k x w1 _ _ _ _ _ _ _ S1 F1 Hb HKb Tb E1 R1) as (r & w2 & tb' & P1 & P2 & P3 & P4 & P5).
    split; [exists r, w2, tb, tb'; auto|]. split; [split; [exact P3|exists tb'; exact P4]|].
    unfold table_of. rewrite (proj1 P2) by lia. eapply HKa; eauto.
  - split; [|eauto]. destruct F as [F1 F2]. split; [|exact F2]. cbn. unfold stack. cbn. rewrite HS. reflexivity.
  - rewrite todo_start in A. destruct (each_built _ _ _ _ _ _ _ _ _ _ _ A) as (rs & E1 & E2 & E3).
    destruct (E3 _ HTb) as (tb' & T1 & T2). rewrite T1 in HTb2. inversion HTb2; subst tb'.
    pose proof (C50_entries fl sidof t HB) as (K1 & _ & K3).
    assert (HO : forall k x r o, (filter_op) k x r = Some o -> tab_op_key o = k).
    { intros k x r o HO. unfold map_op, filter_op in HO. brk HO; inversion HO; reflexivity. }
    destruct (build_ok fl sidof (filter_op) HO (pentries t) rs tab_new tb (twf_new _ _ _ (good_class fl sidof)) E1) as (Q1 & Q2); auto.
    { intros [k x] He. apply (K1 k x He). }
    exists rs, tb. split; [exact E1|]. split.
    { eapply runs_end; [|exact W]. eapply runs_start; [|exact E2]. repeat split. }
    destruct (ret1_end _ _ _ _ _ _ _ _ _ H HR B) as (Y1 & Y2 & Y3).
    split; [exact Y1|]. split; [exact Y2|]. split; [exact Y3|].
    split; [rewrite (table_world _ _ _ W); exact C|]. split; [rewrite (table_world _ _ _ W); exact T1|]. split.
    + intros i k x r Ei Er. pose proof (K1 k x (nth_error_In _ _ Ei)) as (Kk & _).
      rewrite (Q1 i k x r Ei Er (new_get fl sidof k Kk)). f_equal. unfold map_op, filter_op. try (destruct (truthy r); reflexivity); destruct r; reflexivity.
    + intros k Hk HN. rewrite (Q2 k Hk (absent_key fl sidof t k HB Hk HN)). apply (new_get fl sidof). exact Hk.
Qed.
Print Assumptions C50_filter.

(** ** Functions that do not write tables *)
(** Code without a TPUT instruction changes no table. *)
Lemma keeps_without_tput X powf code size ref act a : 0 <= a -> (forall p, code p <> opnum I_TPUT) -> keeps (X := X) [] powf code size ref act a.
Proof.
  intros Ha HN v args r v' t (v1 & _ & (HH & _) & (n & vl & HS & HL & _)) HT.
  assert (H1 : table_of v1 a = Some t) by (unfold table_of in *; congruence).
  assert (HStep : forall w w' : vm X, vm_step [] powf code size w = Ok w' -> table_of w a = Some t -> table_of w' a = Some t).
  { intros w w' Hw Tw. unfold table_of in *. rewrite (step_table X [] powf size code w w' a); auto.
    - apply nth_error_Some. congruence.
    - intros f ? ? [].
    - intros [_ HC]. destruct (HN _ HC). }
  assert (HSteps : forall n (w w' : vm X), vm_steps [] powf code size n w = Ok w' -> table_of w a = Some t -> table_of w' a = Some t).
  { induction n0 as [|m IH]; intros w w' Hw Tw; cbn [vm_steps] in Hw; [inversion Hw; subst; auto|].
    destruct (vm_step _ _ _ _ w) as [w1| | |] eqn:E; cbn [bind] in Hw; try discriminate. eauto. }
  eauto.
Qed.

(** ** Concrete calls *)
(** function(k, x) { return x + x } at 10, function(k, x, y) { return x + y } at 30,
    function(k, x) { return x - 10 } at 50. *)
Definition cb_code : Z -> Z :=
  mem_of ([0; 0; 0; 0; 0; 0; 0; 0; 0; 0] ++ [41; 2; 0; 0; 0; 41; 2; 0; 0; 0; 7; 6; 0; 0; 0; 0; 0; 0; 0; 0]
       ++ [41; 2; 0; 0; 0; 41; 3; 0; 0; 0; 7; 6; 0; 0; 0; 0; 0; 0; 0; 0] ++ [41; 2; 0; 0; 0; 36; 10; 0; 0; 0; 8; 6]).
Lemma cb_no_tput p : cb_code p <> opnum I_TPUT.
Proof.
  unfold cb_code, mem_of. destruct (0 <=? p); [|discriminate].
  match goal with |- nth ?n ?l 0 <> _ => assert (H : Forall (fun x => x <> 31) l) by (repeat constructor; discriminate);
    destruct (nth_in_or_default n l 0) as [Hi|Hi] end; [|rewrite Hi; discriminate].
  rewrite Forall_forall in H. exact (H _ Hi).
Qed.
Definition iter_vm (args : list obj) : vm unit := set_heap (lib_vm args) [two_entries].
Lemma iter_called args : called (iter_vm args) args 30 [OInt 99] [[]] [mkLs [] false].
Proof. constructor; try reflexivity. exists ONil. reflexivity. Qed.
Definition cb (ref : Z) : obj := OClos true ref [ONil].
Definition ready_top (r : res (vm unit)) : option (obj * list table) :=
  match r with Ok v => match v_state v with S_READY => Some (hd ONil (stack v), v_heap v) | _ => None end | _ => None end.
Example C50_nontrivial :
  (forall args, called (iter_vm args) args 30 [OInt 99] [[]] [mkLs [] false]) /\
  (forall args, table_of (iter_vm args) 0 = Some two_entries) /\ built (key_class false zlen) two_entries /\
  (forall ref a, 0 <= a -> keeps (X := unit) [] no_pow cb_code 62 ref [ONil] a) /\
  ready_top (obj_foreach [] no_pow cb_code 62 50 (iter_vm [OTab 0; cb 10])) = Some (ONil, [two_entries]) /\
  ready_top (obj_reduce [] no_pow cb_code 62 50 (iter_vm [OTab 0; cb 30; OInt 5])) = Some (OInt 35, [two_entries]) /\
  option_map (fun p => (fst p, map pentries (tl (snd p)))) (ready_top (obj_map [] no_pow cb_code 62 50 (iter_vm [OTab 0; cb 10])))
    = Some (OTab 1, [[(OInt 1, OInt 20); (OInt 11, OInt 40)]]) /\
  option_map (fun p => (fst p, map pentries (tl (snd p)))) (ready_top (obj_filter [] no_pow cb_code 62 50 (iter_vm [OTab 0; cb 50])))
    = Some (OTab 1, [[(OInt 11, OInt 20)]]).
Proof.
  split; [exact iter_called|]. split; [reflexivity|]. split; [apply C50_entries_nontrivial|].
  split. { intros ref a Ha. apply keeps_without_tput; [exact Ha|exact cb_no_tput]. }
  vm_compute. repeat split.
Qed.

(** ** Callbacks that change the table *)
(** Removing the entry that is being visited, foreach(t, function(k, x) { t[k] = nil }), the usual way of clearing
    a table, makes the loop read a bucket that was freed. *)
Definition clear_code : Z -> Z :=
  mem_of ([0; 0; 0; 0; 0; 0; 0; 0; 0; 0] ++ [41; 1; 0; 0; 0; 41; 2; 0; 0; 0; 2; 31; 5]).
Definition one_entry : table := match tab_history tab_new [TabSet (OInt 1) (OInt 10)] with Ok t => t | _ => [] end.
Theorem C50_foreach_remove_refuted :
  built (key_class false zlen) one_entry /\ pentries one_entry = [(OInt 1, OInt 10)] /\
  forall n, obj_foreach [] no_pow clear_code 23 (10 + n) (set_heap (lib_vm [OTab 0; OClos true 10 [ONil; OTab 0]]) [one_entry]) = UB.
Proof.
  split; [|split; [reflexivity|]]. { exists [TabSet (OInt 1) (OInt 10)]. split; [repeat constructor|reflexivity]. }
  intro n. vm_compute. reflexivity.
Qed.
Print Assumptions C50_foreach_remove_refuted.

(** Assigning to the entry being visited moves it to the end of its bucket.
    foreach(t, function(k, x) { t[k] = x + 1 }) on the table {1: 10, 11: 20} calls the function for 1 twice and
    never for 11. *)
Definition incr_code : Z -> Z :=
  mem_of ([0; 0; 0; 0; 0; 0; 0; 0; 0; 0] ++ [41; 1; 0; 0; 0; 41; 2; 0; 0; 0; 41; 3; 0; 0; 0; 36; 1; 0; 0; 0; 7; 31; 5]).
Theorem C50_foreach_update_refuted :
  built (key_class false zlen) two_entries /\ pentries two_entries = [(OInt 1, OInt 10); (OInt 11, OInt 20)] /\
  option_map (fun p => map pentries (snd p))
    (ready_top (obj_foreach [] no_pow incr_code 33 50 (set_heap (lib_vm [OTab 0; OClos true 10 [ONil; OTab 0]]) [two_entries])))
  = Some [[(OInt 11, OInt 20); (OInt 1, OInt 12)]].
Proof. split; [apply C50_entries_nontrivial|]. split; [reflexivity|]. vm_compute. reflexivity. Qed.
Print Assumptions C50_foreach_update_refuted.

(** A C function as callback, as in foreach(t, print): after each call one instruction of the script that called foreach
    is executed as well (see C64).  Here that instruction is the POP that drops the result of foreach; the
    script stops with a stack error. *)
Definition print_like (v : vm unit) : res (vm unit) := vm_ret0 v.
Definition four_entries : table :=
  match tab_history tab_new [TabSet (OInt 1) (OInt 10); TabSet (OInt 2) (OInt 20); TabSet (OInt 3) (OInt 30); TabSet (OInt 4) (OInt 40)] with Ok t => t | _ => [] end.
Theorem C50_c_callback_refuted :
  c_function_ok print_like /\ built (key_class false zlen) four_entries /\
  exists v', obj_foreach [print_like] no_pow (mem_of [0; 0; 0; 0; 0; 0; 0; 4; 4; 4; 4; 4; 4; 4; 4]) 15 50
    (set_heap (lib_vm [OTab 0; OClos false 0 [ONil]]) [four_entries]) = Ok v' /\ v_state v' = S_ERROR /\ v_error v' = E_STACK.
Proof.
  split; [|split].
  - intros v v' ra s rest ls L HS HL H HR. destruct (ret0_inv _ _ H HR) as (t & ra' & s' & r' & l' & A1 & A2 & A3 & A4). rewrite HS in A1. inversion A1; subst.
    rewrite HL in A2. inversion A2. eauto.
  - exists [TabSet (OInt 1) (OInt 10); TabSet (OInt 2) (OInt 20); TabSet (OInt 3) (OInt 30); TabSet (OInt 4) (OInt 40)]. split; [repeat constructor|reflexivity].
  - eexists. split; [vm_compute; reflexivity|]. split; reflexivity.
Qed.
Print Assumptions C50_c_callback_refuted.

(** ** C79: errors of the function given to map, reduce and filter *)
(** function(k, x, y) { return y } called by map with two arguments: reading y fails with an lnum error, the script is
    told of a stack error. *)
Definition third_code : Z -> Z := mem_of ([0; 0; 0; 0; 0; 0; 0; 0; 0; 0] ++ [41; 3; 0; 0; 0; 6]).
Theorem C79_error_replaced_refuted :
  exists v1 v2,
    callback [] no_pow third_code 16 50 (iter_vm [OTab 0; cb 10]) (cb 10) [OInt 1; OInt 10] = Ok v1 /\ v_state v1 = S_ERROR /\ v_error v1 = E_LNUM /\
    obj_map [] no_pow third_code 16 50 (iter_vm [OTab 0; cb 10]) = Ok v2 /\ v_state v2 = S_ERROR /\ v_error v2 = E_STACK.
Proof. do 2 eexists. split; [vm_compute; reflexivity|]. do 2 (split; [reflexivity|]). split; [vm_compute; reflexivity|]. split; reflexivity. Qed.
Print Assumptions C79_error_replaced_refuted.

(** ** C80: functions on types *)
(** type(x) is the name of the type; isnil(x), isint(x), ... are 1 exactly for values of their type, else 0;
    size(t) is the number of entries; int(f) is f without its fractional part; float(i) is i, for
    integers a float can represent exactly ([fval] is the value of a float times 2^149). *)
Theorem C80_type :
  forall X (v : vm X) x ra s rest L, called v [x] ra s rest L -> good_strings (v_str v) ->
    exists v' r, obj_type v = Ok v' /\ gives v ra s rest L r v' /\ a_string_of v' r (bs (type_name x)).
Proof.
  intros X v x ra s rest L HC G. pose proof HC as HC0. call_start HC. unfold obj_type, lnum_assert. rewrite (lnum_ok _ _ _ HL). cbn [bind].
  change (zlen (self :: [x]) - 1 =? 1) with true. cbv iota. rewrite (lload_ok v _ L 1 x HL ltac:(lia) eq_refl). cbn [bind]. rewrite top_push. cbn [bind].
  replace (type_desc x) with (bs (type_name x)) by (destruct x; reflexivity).
  change (vm_pop (push v x)) with (dpop (push v x)).
  apply (gives_string v (dpop (push v x)) [] (bs (type_name x)) _ ra s rest L HC0 G); auto. cbn. unfold stack. cbn. rewrite HS. reflexivity.
Qed.
Print Assumptions C80_type.

Definition predicate_of : list (string * string) :=
  [ ("isnil", "nil"); ("isint", "integer"); ("isfloat", "float"); ("isstring", "string"); ("istable", "table");
    ("isclosure", "closure"); ("isuserdata", "userdata") ]%string.
Theorem C80_predicates :
  forall X name ty, In (name, ty) predicate_of ->
    exists f, In (bs name, f) (type_predicates (X := X)) /\
      forall (v : vm X) x ra s rest L, called v [x] ra s rest L ->
        exists v', f v = Ok v' /\ gives v ra s rest L (OInt (if String.eqb (type_name x) ty then 1 else 0)) v'.
Proof.
  assert (HG : forall X t (v : vm X) x ra s rest L, called v [x] ra s rest L -> exists v', closure_is t v = Ok v' /\ gives v ra s rest L (OInt (if otype x =? t then 1 else 0)) v').
  { intros X t v x ra s rest L HC. pose proof HC as HC0. call_start HC. unfold closure_is, lnum_assert. rewrite (lnum_ok _ _ _ HL). cbn [bind].
    change (zlen (self :: [x]) - 1 =? 1) with true. cbv iota. rewrite (lload_ok v _ L 1 x HL ltac:(lia) eq_refl). cbn [bind]. rewrite top_push. cbn [bind].
    destruct (gives_ret1 v (push (push v x) (of_bool (otype x =? t))) (of_bool (otype x =? t)) [x] [x] ra s rest L HC0) as (v' & E & HV & _); auto.
    { cbn. unfold stack. cbn. rewrite HS. reflexivity. }
    exists v'. split; [exact E|]. destruct (otype x =? t); exact HV. }
  intros X name ty HI. cbn [In predicate_of] in HI.
  decompose [or] HI; try contradiction; match goal with H : (_, _) = (name, ty) |- _ => inversion H; subst; clear H HI end;
    (eexists; split; [unfold type_predicates; cbn [In]; eauto 12|]); intros v x ra s rest L HC;
    match goal with |- exists v', closure_is ?t v = _ /\ _ => destruct (HG X t v x ra s rest L HC) as (v' & E & HV) end;
    exists v'; (split; [exact E|]); destruct x; exact HV.
Qed.
Print Assumptions C80_predicates.

Theorem C80_size :
  forall X (v : vm X) a t ra s rest L, called v [OTab a] ra s rest L -> 0 <= a -> table_of v a = Some t -> zlen (pentries t) < 2 ^ 31 ->
    exists v', obj_size v = Ok v' /\ gives v ra s rest L (OInt (zlen (pentries t))) v'.
Proof.
  intros X v a t ra s rest L HC Ha HT HZ. pose proof HC as HC0. call_start HC. unfold obj_size, lnum_assert. rewrite (lnum_ok _ _ _ HL). cbn [bind].
  change (zlen (self :: [OTab a]) - 1 =? 1) with true. cbv iota. rewrite (lload_ok v _ L 1 (OTab a) HL ltac:(lia) eq_refl). cbn [bind].
  unfold type_assert. rewrite top_push. cbn [bind]. change (otype (OTab a) =? T_TABLE) with true. cbv iota.
  unfold tab_at. replace (0 <=? a) with true by lia. unfold table_of in HT. change (v_heap (push v (OTab a))) with (v_heap v). rewrite HT. cbn [bind].
  change (psize t) with (zlen (pentries t)). assert (0 <= zlen (pentries t)) by (unfold zlen; lia).
  rewrite sign32_id by (split; lia).
  destruct (gives_ret1 v (push (dpop (push v (OTab a))) (OInt (zlen (pentries t)))) (OInt (zlen (pentries t))) [] [OTab a] ra s rest L HC0) as (v' & E & HV & _); auto.
  { cbn. unfold stack. cbn. rewrite HS. reflexivity. }
  exists v'. split; [exact E|exact HV].
Qed.
Print Assumptions C80_size.

(** Truncation in terms of the value. *)
Lemma trunc_val f : valid_f32 f = true -> finite_f32 f = true -> f_trunc f = Some (Z.quot (fval f) (2 ^ 149)).
Proof.
  intros HV HF. destruct f as [b| | |b m e]; try discriminate; [reflexivity|].
  assert (He : -149 <= e).
  { unfold valid_f32, valid_binary, bounded, canonical_mantissa, fexp in HV. apply andb_prop in HV as [HV _]. apply Zeq_bool_eq in HV. 
    change (emin fprec femax) with (-149) in HV. lia. }
  cbn [f_trunc fval]. f_equal.
  assert (HE : (if 0 <=? e then Zpos m * 2 ^ e else Zpos m / 2 ^ (- e)) = Z.quot (Zpos m * 2 ^ (e + 149)) (2 ^ 149)).
  { rewrite Z.quot_div_nonneg by (try apply Z.mul_nonneg_nonneg; try apply Z.pow_nonneg; try apply Z.pow_pos_nonneg; lia).
    destruct (0 <=? e) eqn:E.
    - rewrite Z.pow_add_r by lia. rewrite Z.mul_assoc, Z.div_mul; [reflexivity|]. apply Z.pow_nonzero; lia.
    - replace (2 ^ 149) with (2 ^ (- e) * 2 ^ (e + 149)) by (rewrite <- Z.pow_add_r by lia; f_equal; lia).
      rewrite Z.div_mul_cancel_r; [reflexivity| |]; apply Z.pow_nonzero; lia. }
  rewrite HE. destruct b; [|reflexivity]. rewrite Z.quot_opp_l; [reflexivity|]. apply Z.pow_nonzero; lia.
Qed.
Theorem C80_int :
  forall X (v : vm X) f ra s rest L, called v [OFloat f] ra s rest L -> valid_f32 f = true -> finite_f32 f = true ->
    let z := Z.quot (fval f) (2 ^ 149) in - 2 ^ 31 <= z < 2 ^ 31 ->
    exists v', obj_int v = Ok v' /\ gives v ra s rest L (OInt z) v'.
Proof.
  intros X v f ra s rest L HC HV HF z Hz. pose proof HC as HC0. call_start HC. unfold obj_int, lnum_assert. rewrite (lnum_ok _ _ _ HL). cbn [bind].
  change (zlen (self :: [OFloat f]) - 1 =? 1) with true. cbv iota. rewrite (lload_ok v _ L 1 (OFloat f) HL ltac:(lia) eq_refl). cbn [bind].
  unfold type_assert. rewrite top_push. cbn [bind]. change (otype (OFloat f) =? T_FLOAT) with true. cbv iota.
  unfold f_to_int32. rewrite (trunc_val f HV HF). fold z. replace (int32_rangeb z) with true by (unfold int32_rangeb; change (2 ^ 31) with 2147483648 in *; lia). cbn [bind].
  destruct (gives_ret1 v (push (dpop (push v (OFloat f))) (OInt z)) (OInt z) [] [OFloat f] ra s rest L HC0) as (v' & E & HG & _); auto.
  { cbn. unfold stack. cbn. rewrite HS. reflexivity. }
  exists v'. split; [exact E|exact HG].
Qed.
Print Assumptions C80_int.
Theorem C80_float :
  forall X (v : vm X) i ra s rest L, called v [OInt i] ra s rest L -> Z.abs i < 2 ^ 24 ->
    exists v' f, obj_float v = Ok v' /\ gives v ra s rest L (OFloat f) v' /\ valid_f32 f = true /\ fval f = i * 2 ^ 149.
Proof.
  intros X v i ra s rest L HC Hi. pose proof HC as HC0. call_start HC. unfold obj_float, lnum_assert. rewrite (lnum_ok _ _ _ HL). cbn [bind].
  change (zlen (self :: [OInt i]) - 1 =? 1) with true. cbv iota. rewrite (lload_ok v _ L 1 (OInt i) HL ltac:(lia) eq_refl). cbn [bind].
  unfold type_assert. rewrite top_push. cbn [bind]. change (otype (OInt i) =? T_INT) with true. cbv iota. unfold top_int. rewrite top_push. cbn [bind].
  destruct (gives_ret1 v (push (dpop (push v (OInt i))) (OFloat (f_of_Z i))) (OFloat (f_of_Z i)) [] [OInt i] ra s rest L HC0) as (v' & E & HG & _); auto.
  { cbn. unfold stack. cbn. rewrite HS. reflexivity. }
  exists v', (f_of_Z i). split; [exact E|]. split; [exact HG|]. destruct (f_of_Z_exact i Hi) as (A & _ & B). auto.
Qed.
Print Assumptions C80_float.
(** int() of a float whose integer part does not fit is not checked. *)
Theorem C80_int_out_of_range_refuted :
  valid_f32 (S754_finite false 8388608 8) = true /\ Z.quot (fval (S754_finite false 8388608 8)) (2 ^ 149) = 2 ^ 31 /\
  called (lib_vm [OFloat (S754_finite false 8388608 8)]) [OFloat (S754_finite false 8388608 8)] 30 [OInt 99] [[]] [mkLs [] false] /\
  obj_int (lib_vm [OFloat (S754_finite false 8388608 8)]) = UB.
Proof. split; [reflexivity|]. split; [reflexivity|]. split; [apply lib_called|]. vm_compute. reflexivity. Qed.
Print Assumptions C80_int_out_of_range_refuted.

(** Wrong arguments. *)
Definition type_functions X : list (vm X -> res (vm X)) := [obj_type; obj_int; obj_float; obj_size] ++ map snd type_predicates.
Theorem C80_wrong_arguments :
  forall X f (v : vm X) args ra s rest L, In f (type_functions X) -> called v args ra s rest L ->
    (zlen args <> 1 -> exists v', f v = Ok v' /\ fails v' E_LNUM) /\
    (forall x, args = [x] ->
       (f = obj_int /\ otype x <> T_FLOAT) \/ (f = obj_float /\ otype x <> T_INT) \/ (f = obj_size /\ otype x <> T_TABLE) ->
       exists v', f v = Ok v' /\ fails v' E_TYPE).
Proof.
  intros X f v args ra s rest L HI HC. call_start HC.
  assert (EN : lnum v = Ok (zlen args)) by (rewrite (lnum_ok _ _ _ HL), zlen_cons; f_equal; lia). split.
  - intro HZ. assert (HE : f v = Ok (err v E_LNUM)). 2: { rewrite HE. eexists. split; [reflexivity|]. split; reflexivity. }
    cbn [type_functions In app map snd type_predicates] in HI. decompose [or] HI; try contradiction; subst f;
      unfold obj_type, obj_int, obj_float, obj_size, closure_is, lnum_assert; rewrite EN; cbn [bind]; replace (zlen args =? 1) with false by lia; reflexivity.
  - intros x -> HT. assert (HE : f v = Ok (err (push v x) E_TYPE)). 2: { rewrite HE. eexists. split; [reflexivity|]. split; reflexivity. }
    destruct HT as [(-> & HT)|[(-> & HT)|(-> & HT)]]; unfold obj_int, obj_float, obj_size, lnum_assert; rewrite EN; cbn [bind];
      change (zlen [x] =? 1) with true; cbv iota; rewrite (lload_ok v _ L 1 x HL ltac:(lia) eq_refl); cbn [bind]; unfold type_assert; rewrite top_push; cbn [bind].
    + replace (otype x =? T_FLOAT) with false by lia. reflexivity.
    + replace (otype x =? T_INT) with false by lia. reflexivity.
    + replace (otype x =? T_TABLE) with false by lia. reflexivity.
Qed.
Print Assumptions C80_wrong_arguments.
Lemma within_pop X ra s rest L (v : vm X) : within ra s rest L v -> within ra s rest L (vm_pop v).
Proof.
  intros [[st HS] [ls HL]]. unfold vm_pop. destruct (stack v); (split; [|exists ls; exact HL]); cbn; [rewrite HS; eauto|].
  unfold dpop, stack. cbn. rewrite HS. eauto.
Qed.
Ltac ends_pop := repeat (ends_tac; try apply within_pop).
(** The requirement C40 makes on C functions. *)
Theorem C80_frames : forall X f, In f (type_functions X) -> c_function_ok f.
Proof.
  intros X f HI. cbn [type_functions In app map snd type_predicates] in HI. decompose [or] HI; try contradiction; subst f.
  - c_fun (@obj_type X). unfold obj_type. ends_pop.
  - c_fun (@obj_int X). unfold obj_int. ends_pop.
  - c_fun (@obj_float X). unfold obj_float. ends_pop.
  - c_fun (@obj_size X). unfold obj_size. ends_pop.
  - c_fun (@closure_is X T_NIL). unfold closure_is. ends_pop.
  - c_fun (@closure_is X T_INT). unfold closure_is. ends_pop.
  - c_fun (@closure_is X T_FLOAT). unfold closure_is. ends_pop.
  - c_fun (@closure_is X T_STRING). unfold closure_is. ends_pop.
  - c_fun (@closure_is X T_TABLE). unfold closure_is. ends_pop.
  - c_fun (@closure_is X T_CLOSURE). unfold closure_is. ends_pop.
  - c_fun (@closure_is X T_USERDATA). unfold closure_is. ends_pop.
Qed.
Print Assumptions C80_frames.
Example C80_nontrivial :
  called (lib_vm [OFloat f_half]) [OFloat f_half] 30 [OInt 99] [[]] [mkLs [] false] /\
  result_of (obj_type (lib_vm [OFloat f_half])) = Some (OStr 4 (bs "float")) /\
  result_of (obj_int (lib_vm [OFloat (S754_finite true 10485760 (-22))])) = Some (OInt (-2)) /\
  result_of (obj_float (lib_vm [OInt 3])) = Some (OFloat (S754_finite false 12582912 (-22))) /\
  result_of (obj_size (set_heap (lib_vm [OTab 0]) [two_entries])) = Some (OInt 2) /\
  result_of (closure_is T_FLOAT (lib_vm [OFloat f_half])) = Some (OInt 1).
Proof. split; [apply lib_called|]. vm_compute. repeat split. Qed.
