(** Theorems about swarm.exec: C83. *)
From Coq Require Import String.
From Verif Require Import Base ListLemmas Float Dict PDict Strman StrmanSpec StrmanProofs Obj ObjSpec Instr Vm VmSpec VmProofs VmFrames PropsVm PropsVmFrames
  Text Strlib CFunSpec CFunProofs PropsStrlib SwarmExec SwarmExecSpec.
Local Open Scope Z_scope.
Local Open Scope list_scope.

(** ** The swarm stack during an execution *)
Section Stack.
Context {X : Type}.
Notation vm := (vm X).
Implicit Types v : vm.
Variable flist : list (vm -> res vm).
Variable powf : libm.
Variable code : Z -> Z.
Variable size : Z.
Notation exec := (exec flist powf code size).
Notation vm_step := (vm_step flist powf code size).
Notation vm_steps := (vm_steps flist powf code size).
Notation vm_call := (vm_call flist).

Definition flags v : list bool := map ls_swarm (v_lsymts v).
Definition sw v v' : Prop := flags v' = flags v /\ v_swstk v' = v_swstk v.
Ltac ks H := unfold stack_assert, type_assert, stack_at in H; brk H; inversion H; subst; clear H; split; reflexivity.
Lemma sw_vm_arith v i f v' : vm_arith v i f = Ok v' -> sw v v'.
Proof. unfold vm_arith. intro H. ks H. Qed.
Lemma sw_vm_mod v  v' : vm_mod v = Ok v' -> sw v v'.
Proof. unfold vm_mod. intro H. ks H. Qed.
Lemma sw_vm_pow v  v' : vm_pow powf v = Ok v' -> sw v v'.
Proof. unfold vm_pow. intro H. ks H. Qed.
Lemma sw_vm_unm v  v' : vm_unm v = Ok v' -> sw v v'.
Proof. unfold vm_unm. intro H. ks H. Qed.
Lemma sw_vm_logic v f v' : vm_logic v f = Ok v' -> sw v v'.
Proof. unfold vm_logic. intro H. ks H. Qed.
Lemma sw_vm_lnot v  v' : vm_lnot v = Ok v' -> sw v v'.
Proof. unfold vm_lnot. intro H. ks H. Qed.
Lemma sw_vm_bitwise v f v' : vm_bitwise v f = Ok v' -> sw v v'.
Proof. unfold vm_bitwise. intro H. ks H. Qed.
Lemma sw_vm_bnot v  v' : vm_bnot v = Ok v' -> sw v v'.
Proof. unfold vm_bnot. intro H. ks H. Qed.
Lemma sw_vm_cmp v f v' : vm_cmp powf v f = Ok v' -> sw v v'.
Proof. unfold vm_cmp. intro H. ks H. Qed.
Lemma sw_vm_gload v  v' : vm_gload v = Ok v' -> sw v v'.
Proof. unfold vm_gload. intro H. ks H. Qed.
Lemma sw_vm_gstore v  v' : vm_gstore v = Ok v' -> sw v v'.
Proof. unfold vm_gstore. intro H. ks H. Qed.
Lemma sw_vm_tput v  v' : vm_tput v = Ok v' -> sw v v'.
Proof. unfold vm_tput. intro H. ks H. Qed.
Lemma sw_vm_tget v  v' : vm_tget v = Ok v' -> sw v v'.
Proof. unfold vm_tget. intro H. ks H. Qed.
Lemma sw_vm_pushl v a v' : vm_pushl v a = Ok v' -> sw v v'.
Proof. unfold vm_pushl. intro H. ks H. Qed.
Lemma sw_vm_lload v a v' : vm_lload v a = Ok v' -> sw v v'.
Proof. unfold vm_lload. intro H. ks H. Qed.
Lemma sw_vm_lstore v a v' : vm_lstore v a = Ok v' -> sw v v'.
Proof. unfold vm_lstore. intro H. unfold stack_assert, type_assert, stack_at in H; brk H; inversion H; subst; clear H; split; try reflexivity; unfold flags; cbn; match goal with H : v_lsymts v = _ |- _ => rewrite H; reflexivity end. Qed.
Lemma sw_vm_lremove v a v' : vm_lremove v a = Ok v' -> sw v v'.
Proof. unfold vm_lremove. intro H. unfold stack_assert, type_assert, stack_at in H; brk H; inversion H; subst; clear H; split; try reflexivity; unfold flags; cbn; match goal with H : v_lsymts v = _ |- _ => rewrite H; reflexivity end. Qed.
(** Returning ends a frame: for that of a swarm, the swarm stack is popped. *)
Definition leaves v v' : Prop := exists b, flags v = b :: flags v' /\ v_swstk v' = if b then tl (v_swstk v) else v_swstk v.
Lemma sw_ret_to v r v' : ret_to v r = Ok v' -> sw v v'.
Proof. unfold ret_to. intro H. ks H. Qed.
Lemma sw_pop_lsyms v  v' : pop_lsyms v = Ok v' -> leaves v v'.
Proof.
  unfold pop_lsyms. intro H. destruct (v_lsymts v) as [|ls t] eqn:E; [discriminate|]. inversion H; subst. exists (ls_swarm ls). unfold flags. rewrite E.
  split; [reflexivity|]. destruct (ls_swarm ls); reflexivity.
Qed.
Lemma sw_pop_stacks v  v' : pop_stacks v = Ok v' -> sw v v'.
Proof. unfold pop_stacks. intro H. ks H. Qed.
Lemma leaves_sw v v1 v' : leaves v v1 -> sw v1 v' -> leaves v v'.
Proof. intros (b & A & B) [C D]. exists b. rewrite C, D. auto. Qed.
Lemma sw_trans v v1 v' : sw v v1 -> sw v1 v' -> sw v v'.
Proof. intros [A B] [C D]. split; congruence. Qed.
Lemma sw_leaves v v1 v' : sw v v1 -> leaves v1 v' -> leaves v v'.
Proof. intros [A B] (b & C & D). exists b. rewrite <- A, <- B. auto. Qed.
Lemma sw_ret0 v v' : vm_ret0 v = Ok v' -> leaves v v'.
Proof.
  unfold vm_ret0. destruct (pop_lsyms v) as [v1| | |] eqn:E1; cbn [bind]; try discriminate.
  destruct (pop_stacks v1) as [v2| | |] eqn:E2; cbn [bind]; try discriminate. intro H.
  apply sw_pop_lsyms in E1. apply sw_pop_stacks in E2. apply sw_ret_to in H. eauto using leaves_sw.
Qed.
Lemma sw_err v e : sw v (err v e). Proof. split; reflexivity. Qed.
Lemma sw_ret1 v v' : vm_ret1 v = Ok v' -> leaves v v'.
Proof.
  unfold vm_ret1, stack_assert. destruct (pop_lsyms v) as [v1| | |] eqn:E1; cbn [bind]; try discriminate.
  apply sw_pop_lsyms in E1. destruct (_ <? 0); [intro H; inversion H; eapply leaves_sw; [exact E1|apply sw_err]|]. destruct (stack v1); [discriminate|].
  destruct (pop_stacks v1) as [v2| | |] eqn:E2; cbn [bind]; try discriminate. intro H.
  apply sw_pop_stacks in E2. apply sw_ret_to in H. eauto using leaves_sw.
Qed.
Lemma sw_inc v k v' : inc_pc size v k = Ok v' -> sw v v' \/ k (bump v) = Ok v'.
Proof. unfold inc_pc, bump. destruct (pc_ok _ _); intro H; auto. left. inversion H; split; reflexivity. Qed.
Lemma sw_arg v k v' : get_arg code size v k = Ok v' -> sw v v' \/ exists w, k (set_pc v (v_pc v + 4)) w = Ok v'.
Proof. unfold get_arg. destruct (pc_ok _ _); intro H; eauto. left. inversion H; split; reflexivity. Qed.
Lemma sw_op r v v' : op_inc size r = Ok v' -> (forall v1, r = Ok v1 -> sw v v1) -> sw v v'.
Proof.
  unfold op_inc. destruct r as [v1| | |]; cbn [bind]; try discriminate. intros H HK. apply sw_inc in H as [H|H].
  - eapply sw_trans; eauto.
  - inversion H. subst. apply (HK _ eq_refl).
Qed.
Lemma sw_if (Q : vm -> vm -> Prop) r k v v' : (forall a b c, Q a b -> sw b c -> Q a c) -> if_ready r k = Ok v' -> (forall v1, r = Ok v1 -> Q v v1) -> (forall v1, k v1 = Ok v' -> sw v1 v') -> Q v v'.
Proof.
  intro HQ. unfold if_ready. destruct r as [v1| | |]; cbn [bind]; try discriminate. intros H HK Hk. specialize (HK _ eq_refl).
  destruct (is_ready _); [apply Hk in H; eauto|inversion H; subst; auto].
Qed.
Lemma sw_assert v v' : Ok (assert_pc size v) = Ok v' -> sw v v'.
Proof. intro H. inversion H. unfold assert_pc. destruct (pc_ok _ _); split; reflexivity. Qed.
Lemma sw_done v v' : inc_pc size v done_ = Ok v' -> sw v v'.
Proof. intro H. apply sw_inc in H as [H|H]; auto. inversion H. split; reflexivity. Qed.
Lemma sw_pop v v' : Ok (vm_pop v) = Ok v' -> sw v v'.
Proof. intro H. inversion H. unfold vm_pop. destruct (stack v); split; reflexivity. Qed.

Lemma sw_call v w v' : vm_call v w = Ok v' -> sw v v' \/ (flags v' = w :: flags v /\ v_swstk v' = v_swstk v) \/
  exists f v5 ls, In f flist /\ v_lsymts v5 = ls :: v_lsymts v /\ ls_swarm ls = w /\ v_swstk v5 = v_swstk v /\ (exists ra s, v_stacks v5 = [] :: (OInt ra :: s) :: tl (v_stacks v)) /\ f v5 = Ok v'.
Proof.
  unfold Vm.vm_call, stack_assert, type_assert. intros H.
  destruct (zlen (stack v) - 1 <? 0) eqn:E0; [inversion H; subst; left; apply sw_err|].
  destruct (stack_at v 1) as [o| | |] eqn:E1; cbn [bind] in H; try discriminate.
  destruct (otype o =? T_INT) eqn:E2; [|inversion H; subst; left; apply sw_err].
  destruct (stack v) as [|[| argn | | | | |] s0] eqn:ES; try discriminate.
  destruct (argn + 1 >=? 2 ^ 31) eqn:EO; [discriminate|].
  destruct (zlen (stack (set_stack v s0)) - (argn + 1) <? 0) eqn:E3; [inversion H; subst; left; split; reflexivity|].
  destruct (stack_at (set_stack v s0) (argn + 1)) as [c| | |] eqn:E4; cbn [bind] in H; try discriminate.
  destruct (otype c =? T_CLOSURE) eqn:E5; [|inversion H; subst; left; split; reflexivity].
  destruct c as [| | | | |native ref act|]; try discriminate.
  destruct (negb native && (zlen flist <=? ref)) eqn:E8; [inversion H; subst; left; split; reflexivity|].
  destruct native; cbv zeta in H.
  - inversion H. right. left. split; reflexivity.
  - destruct (ref <? 0); [discriminate|]. destruct (nth_error flist (Z.to_nat ref)) as [f|] eqn:EF; [|discriminate].
    match type of H with f ?w5 = _ => set (v5 := w5) in H; set (ls := mkLs (map Some act ++ rev (map Some (firstn (Z.to_nat argn) s0))) w);
      right; right; exists f, v5, ls end.
    split; [eapply nth_error_In; eassumption|]. split; [reflexivity|]. split; [reflexivity|]. split; [reflexivity|]. split; [|exact H]. do 2 eexists. reflexivity.
Qed.

(** What an instruction does to the swarms being executed. *)
Lemma exec_sw o v v' : exec v o = Ok v' ->
  sw v v' \/ leaves v v' \/
  (exists w, (w = true -> o = I_CALLS) /\ ((flags v' = w :: flags v /\ v_swstk v' = v_swstk v) \/
     exists f v5 v6 ls, In f flist /\ v_lsymts v5 = ls :: v_lsymts v /\ ls_swarm ls = w /\ v_swstk v5 = v_swstk v /\ (exists ra s, v_stacks v5 = [] :: (OInt ra :: s) :: tl (v_stacks v)) /\ f v5 = Ok v6 /\ sw v6 v' /\ (v_state v' = S_READY -> v_state v6 = S_READY))).
Proof.
  assert (HCall : forall w, inc_pc size v (fun v => if_ready (vm_call v w) (fun v => Ok (assert_pc size v))) = Ok v' -> (w = true -> o = I_CALLS) ->
    sw v v' \/ leaves v v' \/ (exists w, (w = true -> o = I_CALLS) /\ ((flags v' = w :: flags v /\ v_swstk v' = v_swstk v) \/
     exists f v5 v6 ls, In f flist /\ v_lsymts v5 = ls :: v_lsymts v /\ ls_swarm ls = w /\ v_swstk v5 = v_swstk v /\ (exists ra s, v_stacks v5 = [] :: (OInt ra :: s) :: tl (v_stacks v)) /\ f v5 = Ok v6 /\ sw v6 v' /\ (v_state v' = S_READY -> v_state v6 = S_READY)))).
  { intros w H HO. apply sw_inc in H as [H|H]; [left; exact H|]. unfold if_ready in H. destruct (vm_call (bump v) w) as [v1| | |] eqn:E; cbn [bind] in H; try discriminate.
    assert (HA : sw v1 v') by (destruct (is_ready _); [apply sw_assert in H; auto|inversion H; split; reflexivity]).
    assert (HB : v_state v' = S_READY -> v_state v1 = S_READY) by (destruct (v_state v1) eqn:EV; auto; cbn [is_ready] in H; inversion H; congruence).
    apply sw_call in E as [E|[[E1 E2]|(f & v5 & ls & E1 & E2 & E3 & E4 & E4' & E5)]].
    - left. eapply sw_trans; [|exact HA]. exact E.
    - right. right. exists w. split; auto. left. destruct HA as [A B]. rewrite A, B. auto.
    - right. right. exists w. split; auto. right. exists f, v5, v1, ls. auto 10. }
  intros H. destruct o; cbn [Vm.exec] in H;
    try (left; apply sw_done in H; exact H);
    try (left; eapply sw_op; [exact H|]; intros v1 E1;
         eauto using sw_vm_arith, sw_vm_mod, sw_vm_pow, sw_vm_unm, sw_vm_logic, sw_vm_lnot, sw_vm_bitwise, sw_vm_bnot, sw_vm_cmp; fail);
    try (left; eapply (sw_if sw); [exact sw_trans|exact H| |]; [eauto using sw_vm_tput, sw_vm_tget, sw_pop|eauto using sw_assert, sw_done]; fail);
    try (right; left; eapply (sw_if leaves); [exact leaves_sw|exact H| |]; [eauto using sw_ret0, sw_ret1|eauto using sw_assert, sw_done]; fail);
    try (apply (HCall _ H); congruence);
    try (apply sw_inc in H as [H|H]; [left; exact H|]);
    try (apply sw_arg in H as [H|(w & H)]; [left; exact H|]);
    try (left; inversion H; split; reflexivity).
  - inversion H; subst. left. unfold vm_dup. destruct (stack _); split; reflexivity.
  - left. apply sw_vm_gload in H. exact H.
  - left. apply sw_vm_gstore in H. exact H.
  - inversion H; subst. left. unfold vm_pushs. destruct (sm_get _ _); split; reflexivity.
  - left. apply sw_vm_pushl in H. exact H.
  - left. apply sw_vm_lload in H. exact H.
  - left. apply sw_vm_lstore in H. exact H.
  - left. apply sw_vm_lremove in H. exact H.
  - inversion H; subst. left. unfold assert_pc. destruct (pc_ok _ _); split; reflexivity.
  - left. unfold stack_assert in H. destruct (_ <? 0); [inversion H; split; reflexivity|].
    destruct (stack_at _ _) as [o| | |]; cbn [bind] in H; try discriminate. destruct (Bool.eqb _ _); [|apply sw_pop in H; exact H].
    unfold assert_pc in H. destruct (pc_ok size (v_pc (set_pc _ _))); cbv zeta in H.
    + destruct (is_ready _); [apply sw_pop in H; exact H|inversion H; split; reflexivity].
    + cbn [is_ready err set_state v_state] in H. inversion H; split; reflexivity.
  - left. unfold stack_assert in H. destruct (_ <? 0); [inversion H; split; reflexivity|].
    destruct (stack_at _ _) as [o| | |]; cbn [bind] in H; try discriminate. destruct (Bool.eqb _ _); [|apply sw_pop in H; exact H].
    unfold assert_pc in H. destruct (pc_ok size (v_pc (set_pc _ _))); cbv zeta in H.
    + destruct (is_ready _); [apply sw_pop in H; exact H|inversion H; split; reflexivity].
    + cbn [is_ready err set_state v_state] in H. inversion H; split; reflexivity.
Qed.
End Stack.
Section Run.
Context {X : Type}.
Variable flist : list (vm X -> res (vm X)).
Variable powf : libm.
Variable code : Z -> Z.
Variable size : Z.
Hypothesis HC : Forall c_function_ok flist.
Hypothesis HK : Forall keeps_swarms flist.

(** The swarm stack is [S] under one id for each frame of a swarm above the frames [F]. *)
Definition trues (l : list bool) : nat := length (filter (fun b : bool => b) l).
Definition over (F : list bool) (S : list Z) (v : vm X) : Prop :=
  exists pre ids, flags v = pre ++ F /\ v_swstk v = ids ++ S /\ length ids = trues pre.
Lemma over_step ra s rest L S v v' : below ((OInt ra :: s) :: rest) L v -> over (map ls_swarm L) S v -> ~ about_to code v I_CALLS ->
  vm_step flist powf code size v = Ok v' -> v_state v' = S_READY -> over (map ls_swarm L) S v'.
Proof.
  intros (pr & prL & _ & HL & HLen & HN) (pre & ids & HF & HS & HI) HCS H HR.
  assert (Hpre : pre = map ls_swarm prL). { unfold flags in HF. rewrite HL, map_app in HF. apply app_inv_tail in HF. auto. }
  destruct (step_ready flist powf code size v v' H HR) as (HRv & o & Ho & He).
  destruct (exec_sw flist powf code size o v v' He) as [[A B]|[(b & A & B)|(w & HW & [[A B]|(f & v5 & v6 & ls & HI5 & HL5 & HW5 & HS5 & HS6 & HE5 & [A B] & HR6)])]].
  - exists pre, ids. rewrite A, B. auto.
  - rewrite HF in A. destruct pre as [|p pre]. { exfalso. destruct prL; [|discriminate]. destruct pr; [congruence|discriminate]. }
    inversion A; subst p. exists pre, (if b then tl ids else ids). split; [auto|]. rewrite B, HS. clear Hpre A HF. destruct b; cbn in HI.
    + destruct ids as [|i ids]; [discriminate|]. cbn. cbn in HI. split; auto.
    + split; auto.
  - assert (w = false). { destruct w; auto. exfalso. apply HCS. apply opcode_about; [auto| |discriminate]. rewrite Ho, HW; auto. } subst w.
    exists (false :: pre), ids. rewrite A, B, HF. auto.
  - assert (w = false). { destruct w; auto. exfalso. apply HCS. apply opcode_about; [auto| |discriminate]. rewrite Ho, HW; auto. } subst w.
    specialize (HR6 HR). assert (E6 : v_swstk v6 = v_swstk v5) by (eapply (proj1 (Forall_forall _ _) HK f HI5); eauto).
    destruct HS6 as (ra5 & s5 & HS6). destruct (proj1 (Forall_forall _ _) HC f HI5 _ _ _ _ _ _ _ HS6 HL5 HE5 HR6) as (r & _ & E7 & _).
    assert (HFv : flags v' = flags v) by (rewrite A; unfold flags; rewrite E7; reflexivity).
    exists pre, ids. rewrite HFv, B, E6, HS5. auto.
Qed.
Lemma until_swarms ra s rest L S : forall fuel (v v' : vm X),
  below ((OInt ra :: s) :: rest) L v -> over (map ls_swarm L) S v -> no_swarm_calls flist powf code size v -> v_state v = S_READY ->
  step_until flist powf code size fuel (zlen ((OInt ra :: s) :: rest)) v = Ok v' -> v_state v' = S_READY -> v_swstk v' = S.
Proof.
  induction fuel as [|fuel IH]; intros v v' HB HO HNC HRv H HR; cbn [step_until] in H; [discriminate|].
  destruct (vm_step flist powf code size v) as [v1| | |] eqn:E; cbn [bind] in H; try discriminate.
  destruct (v_state v1) eqn:ES; cbn [is_ready negb] in H; try (inversion H; subst; congruence).
  pose proof (over_step ra s rest L S v v1 HB HO (HNC O v eq_refl) E ES) as HO1.
  destruct (step_ready flist powf code size v v1 E ES) as (_ & o & Ho & He).
  destruct (below_step flist powf code size HC ra s rest L o v v1 HB He ES) as [HB1|(top & r & S0 & S1 & L1 & P1 & HX)].
  - destruct (zlen ((OInt ra :: s) :: rest) <? zlen (v_stacks v1)) eqn:EL.
    + apply (IH v1 v'); auto. intros n w Hn. apply (HNC (Datatypes.S n) w). cbn [vm_steps]. rewrite E. exact Hn.
    + exfalso. destruct HB1 as (pre & preL & S1 & _ & _ & Hp). rewrite S1 in EL. unfold zlen in EL. rewrite app_length in EL.
      destruct pre; [congruence|]. cbn [length] in EL. lia.
  - rewrite S1 in H. replace (zlen ((OInt ra :: s) :: rest) <? zlen ((r :: s) :: rest)) with false in H by (unfold zlen; cbn [length]; lia).
    inversion H; subst v'. destruct HO1 as (pre & ids & A & B & C). unfold flags in A. rewrite L1 in A.
    assert (pre = []). { apply (f_equal (@length bool)) in A. rewrite app_length in A. destruct pre; auto. cbn [length] in A. lia. } subst pre.
    destruct ids; [exact B|discriminate].
Qed.
End Run.

(** ** C83 *)
Lemma get_unique sm i j u : (exists ops outs, sm_run sm_new ops = Ok (sm, outs) /\ smhist_ok sm_new ops) -> 0 <= i < 65536 -> 0 <= j < 65536 ->
  sm_get sm i = Some u -> sm_get sm j = Some u -> i = j.
Proof.
  intros (ops & outs & E & H) Hi Hj H1 H2. destruct SInv_new as [HI HD].
  destruct (sm_run_ok ops _ _ HI HD H) as (sm' & outs' & M' & E' & _ & HI' & HD'). rewrite E in E'. inversion E'. subst sm' outs'.
  assert (HG : forall i t, 0 <= i < 65536 -> (sm_get sm i = Some t <-> exists q, M' t = Some (i, q))).
  { intros k t Hk. destruct (get_ok sm M' k HI' Hk) as [(r & ER1 & HH) _]. inversion ER1; subst. apply HH. }
  apply HG in H1 as [q1 H1]; auto. apply HG in H2 as [q2 H2]; auto. congruence.
Qed.
Lemma id_get_ok {X} (v : vm X) a id args ra s rest L k : good_strings (v_str v) -> method_called v a args ra s rest L -> swarm_table v a id ->
  exists sm z, id_get v k = k (push (set_str v sm) (OInt z)) id /\
    (forall i u, 0 <= i < 65536 -> sm_get (v_str v) i = Some u -> sm_get sm i = Some u).
Proof.
  intros HG [HS HL HR] (t & sid & z & HT & Hsid & HI & HE & ->).
  destruct (register_good _ (bs "id") true HG) as (sm & i & E & Hi & HGt & HKs & HO). exists sm, z. split; auto.
  unfold id_get. rewrite (lload_ok v _ L 0 (OTab a) HL ltac:(lia) eq_refl). cbn [bind].
  change (v_str (push v (OTab a))) with (v_str v). rewrite E. cbn [bind].
  assert (i = sid) by (eapply get_unique; eauto). subst i.
  unfold vm_pushs. rewrite wrap16_id by auto. cbn [set_str v_str]. rewrite HGt.
  unfold vm_tget, stack_assert, type_assert. change (stack (push (set_str (push v (OTab a)) sm) (OStr sid (bs "id")))) with (OStr sid (bs "id") :: OTab a :: stack v).
  replace (zlen (OStr sid (bs "id") :: OTab a :: stack v) - 2 <? 0) with false by (unfold zlen; cbn [length]; lia).
  change (stack_at (push (set_str (push v (OTab a)) sm) (OStr sid (bs "id"))) 2) with (@Ok obj (OTab a)). cbn [bind otype]. change (T_TABLE =? T_TABLE) with true. cbv iota.
  assert (HT' : tab_at (set_stack (push (set_str (push v (OTab a)) sm) (OStr sid (bs "id"))) (stack v)) a = Ok t) by exact HT.
  cbn [is_key]. rewrite HT'. cbn [bind]. rewrite HE. cbn [bind]. rewrite top_push. cbn [bind].
  reflexivity.
Qed.

(** A member of the swarm executes the function once, with no argument, and meanwhile the swarm is on top of the stack of
    swarms; then the call gives the result of the function, and the stack of swarms is as before. *)
Theorem C83_exec_member :
  forall X flist powf code size fuel own (v v' : vm X) a id x ref act ra s rest L,
    Forall c_function_ok flist -> good_strings (v_str v) ->
    method_called v a [OClos true ref act] ra s rest L -> swarm_table v a id -> own (v_ext v) id = Some x -> x <> 0 ->
    swarm_exec flist powf code size fuel own v = Ok v' -> v_state v' = S_READY ->
    exists r v1,
      entered v1 ref act /\ v_swstk v1 = id :: v_swstk v /\ v_heap v1 = v_heap v /\ v_gsyms v1 = v_gsyms v /\ v_ext v1 = v_ext v /\
      returned flist powf code size v1 v' r /\
      v_stacks v' = (r :: s) :: rest /\ v_lsymts v' = L /\ v_pc v' = ra /\
      (Forall keeps_swarms flist -> no_swarm_calls flist powf code size v1 -> v_swstk v' = v_swstk v).
Proof.
  intros X flist powf code size fuel own v v' a id x ref act ra s rest L HC HG HM HT HO Hx H HR.
  pose proof HM as [HS HL HRv]. unfold swarm_exec, lnum_assert in H. rewrite (lnum_ok _ _ _ HL) in H. cbn [bind] in H.
  change (zlen [OTab a; OClos true ref act] - 1 =? 1) with true in H. cbv iota in H.
  match type of H with id_get v ?k = _ => destruct (id_get_ok v a id _ ra s rest L k HG HM HT) as (sm & z & E & HKs) end. rewrite E in H. clear E. cbv beta in H.
  set (v0 := push (set_str v sm) (OInt z)) in *. change (v_ext v0) with (v_ext v) in H. rewrite HO in H. replace (x =? 0) with false in H by lia.
  assert (HL0 : v_lsymts v0 = mkLs (map Some [OTab a; OClos true ref act]) false :: L) by exact HL.
  rewrite (lload_ok v0 _ L 1 _ HL0 ltac:(lia) eq_refl) in H. cbn [bind] in H. unfold type_assert in H. rewrite top_push in H. cbn [bind otype] in H.
  change (T_CLOSURE =? T_CLOSURE) with true in H. cbv iota in H.
  assert (HS0 : v_stacks (push v0 (OClos true ref act)) = [OClos true ref act; OInt z] :: (OInt ra :: s) :: rest) by (unfold v0; cbn; unfold stack; cbn; rewrite HS; reflexivity).
  assert (HLp : v_lsymts (push v0 (OClos true ref act)) = mkLs (map Some [OTab a; OClos true ref act]) false :: L) by exact HL.
  rewrite (ret0_ok _ _ ra s rest _ L HS0 HLp) in H. cbn [bind] in H. set (v3 := mkVm ra _ _ _ _ _ _ _ _ _ _) in H.
  assert (HR3 : v_state v3 = S_READY) by exact HRv. rewrite HR3 in H. cbn [is_ready negb] in H.
  change (v_swstk v3) with (v_swstk v) in H. set (v4 := push (push (set_swstk v3 (id :: v_swstk v)) (OClos true ref act)) (OInt 0)) in H. cbv zeta in H.
  destruct (vm_call flist v4 true) as [v5| | |] eqn:EC; cbn [bind] in H; try discriminate.
  assert (HR5 : v_state v5 = S_READY).
  { destruct (v_state v5) eqn:ES; auto; exfalso; destruct fuel as [|fuel]; cbn [step_until] in H; try discriminate;
      rewrite step_stopped in H by congruence; cbn [bind] in H; rewrite ES in H; cbn [is_ready negb] in H; inversion H; subst; congruence. }
  pose proof (call_native X flist v4 v5 true [] ref act ONil s EC HR5 eq_refl) as HV.
  change (v_pc v4) with ra in HV. change (tl (v_stacks v4)) with rest in HV. change (v_lsymts v4) with L in HV. rewrite app_nil_r in HV.
  assert (HB : below ((OInt ra :: s) :: rest) L v5).
  { exists [[]], [mkLs (map Some act) true]. subst v5. repeat split. discriminate. }
  change (zlen (v_stacks v3)) with (zlen ((OInt ra :: s) :: rest)) in H.
  destruct (until_balanced flist powf code size HC _ _ _ _ fuel v5 v' HB HR5 H HR) as (r & A1 & A2 & A3 & n & vl & B1 & B2 & B3 & B4).
  assert (HD5 : call_depth v5 = Datatypes.S (Datatypes.S (length rest))) by (subst v5; reflexivity).
  exists r, v5. split. { subst v5. split; [reflexivity|]. split; [reflexivity|]. do 2 eexists; split; reflexivity. }
  do 4 (split; [subst v5; reflexivity|]). split.
  { exists n, vl. rewrite HD5. split; [auto|]. split; [auto|]. split; [auto|]. split; [auto|]. unfold call_depth. rewrite A1. reflexivity. }
  split; [exact A1|]. split; [exact A2|]. split; [exact A3|].
  intros HKF HNC. eapply (until_swarms flist powf code size HC HKF); [exact HB| |exact HNC|exact HR5|exact H|exact HR].
  exists [true], [id]. subst v5. repeat split.
Qed.
Print Assumptions C83_exec_member.
(** For a robot that is not a member nothing happens. *)
Theorem C83_exec_other :
  forall X flist powf code size fuel own (v : vm X) a id arg ra s rest L,
    good_strings (v_str v) -> method_called v a [arg] ra s rest L -> swarm_table v a id -> own (v_ext v) id = Some 0 ->
    exists v', swarm_exec flist powf code size fuel own v = Ok v' /\ gives v ra s rest L ONil v'.
Proof.
  intros X flist powf code size fuel own v a id arg ra s rest L HG HM HT HO.
  pose proof HM as [HS HL HRv]. unfold swarm_exec, lnum_assert. rewrite (lnum_ok _ _ _ HL). cbn [bind].
  change (zlen [OTab a; arg] - 1 =? 1) with true. cbv iota.
  match goal with |- exists v', id_get v ?k = _ /\ _ => destruct (id_get_ok v a id _ ra s rest L k HG HM HT) as (sm & z & E & HKs) end. rewrite E. clear E. cbv beta.
  change (v_ext (push (set_str v sm) (OInt z))) with (v_ext v). rewrite HO. change (0 =? 0) with true. cbv iota.
  assert (HS0 : v_stacks (push (set_str v sm) (OInt z)) = [OInt z] :: (OInt ra :: s) :: rest) by (cbn; unfold stack; cbn; rewrite HS; reflexivity).
  rewrite (ret0_ok _ _ ra s rest _ L HS0 HL). eexists. split; [reflexivity|]. constructor; cbn; auto.
Qed.
Print Assumptions C83_exec_other.
(** A table that does not stand for a swarm the robot knows, or an argument that is no closure, is an error. *)
Theorem C83_exec_checks :
  forall X flist powf code size fuel own (v : vm X) a id arg ra s rest L,
    good_strings (v_str v) -> method_called v a [arg] ra s rest L -> swarm_table v a id ->
    (own (v_ext v) id = None -> exists v', swarm_exec flist powf code size fuel own v = Ok v' /\ fails v' E_SWARM) /\
    (forall x, own (v_ext v) id = Some x -> x <> 0 -> otype arg <> T_CLOSURE ->
       exists v', swarm_exec flist powf code size fuel own v = Ok v' /\ fails v' E_TYPE).
Proof.
  intros X flist powf code size fuel own v a id arg ra s rest L HG HM HT.
  pose proof HM as [HS HL HRv]. unfold swarm_exec, lnum_assert. rewrite (lnum_ok _ _ _ HL). cbn [bind].
  change (zlen [OTab a; arg] - 1 =? 1) with true. cbv iota.
  match goal with |- (_ -> exists v', id_get v ?k = _ /\ _) /\ _ => destruct (id_get_ok v a id _ ra s rest L k HG HM HT) as (sm & z & E & HKs) end. rewrite E. clear E. cbv beta.
  change (v_ext (push (set_str v sm) (OInt z))) with (v_ext v). split.
  - intros ->. eexists. split; [reflexivity|]. split; reflexivity.
  - intros x -> Hx HA. replace (x =? 0) with false by lia.
    rewrite (lload_ok (push (set_str v sm) (OInt z)) _ L 1 arg HL ltac:(lia) eq_refl). cbn [bind]. unfold type_assert. rewrite top_push. cbn [bind].
    replace (otype arg =? T_CLOSURE) with false by lia. eexists. split; [reflexivity|]. split; reflexivity.
Qed.
Print Assumptions C83_exec_checks.

(** A robot in the swarm 7 (its table at address 0) executes a function that returns 5 (at 10), while executing for the swarm 3. *)
Definition sx_sm : strman := match sm_register sm_fuel lib_sm (bs "id") true with Ok (sm, _) => sm | _ => lib_sm end.
Definition sx_table : table := match tab_set tab_new (OStr 4 (bs "id")) (OInt 7) with Ok t => t | _ => tab_new end.
Definition sx_vm (own : Z) : vm Z :=
  mkVm 7 7 [[]; [OInt 30; OInt 99]; []] [mkLs (map Some [OTab 0; OClos true 10 [ONil]]) false; mkLs [] false] (pnew 20) [sx_table] sx_sm [3] S_READY E_NONE own.
Definition sx_own (x : Z) (id : Z) : option Z := if id =? 7 then Some x else None.
Definition sx_code : Z -> Z := mem_of (repeat 0 10 ++ [36; 5; 0; 0; 0; 6; 0] ++ repeat 0 30).
Example C83_nonvacuous :
  method_called (sx_vm 1) 0 [OClos true 10 [ONil]] 30 [OInt 99] [[]] [mkLs [] false] /\ swarm_table (sx_vm 1) 0 7 /\
  good_strings (v_str (sx_vm 1)) /\ sx_own (v_ext (sx_vm 1)) 7 = Some 1 /\ Forall c_function_ok (@nil (vm Z -> res (vm Z))) /\
  match swarm_exec [] no_pow sx_code 47 10 sx_own (sx_vm 1) with
  | Ok v' => v_state v' = S_READY /\ stack v' = [OInt 5; OInt 99] /\ v_swstk v' = [3]
  | _ => False
  end /\
  match swarm_exec [] no_pow sx_code 47 10 sx_own (sx_vm 0) with Ok v' => stack v' = [ONil; OInt 99] | _ => False end.
Proof.
  split; [constructor; reflexivity|]. split.
  { exists sx_table, 4, 7. split; [reflexivity|]. split; [lia|]. split; [vm_compute; reflexivity|]. split; [vm_compute; reflexivity|reflexivity]. }
  split. { split; [|vm_compute; reflexivity].
    exists [SmReg (bs "buzz") false; SmReg (bs "y") false; SmReg (bs "12") false; SmReg (bs "x") false; SmReg (bs "id") true]. eexists. split; [vm_compute; reflexivity|].
    vm_compute. repeat split. }
  split; [reflexivity|]. split; [constructor|]. split; vm_compute; auto.
Qed.
