From Verif Require Import Base ListLemmas Float Dict PDict Strman Obj Instr Vm VmSpec VmProofs VmFrames.

Section P.
Context {X : Type}.
Notation vm := (vm X).
Implicit Types v : vm.
Variable flist : list (vm -> res vm).
Variable powf : libm.
Variable code : Z -> Z.
Variable size : Z.
Notation exec := (exec flist powf code size).
Notation vm_step := (vm_step flist powf code size).
Notation vm_steps := (vm_steps flist powf code size).
Notation vm_call := (vm_call flist).

(** The heap: only tput, pusht and C functions change it. *)
Definition sameh v v' : Prop := v_heap v' = v_heap v.
Ltac kh H := unfold stack_assert, type_assert, stack_at in H; brk H; inversion H; subst; clear H; reflexivity.
Lemma h_vm_arith v i f v' : vm_arith v i f = Ok v' -> sameh v v'.
Proof. unfold vm_arith. intro H. kh H. Qed.
Lemma h_vm_mod v  v' : vm_mod v = Ok v' -> sameh v v'.
Proof. unfold vm_mod. intro H. kh H. Qed.
Lemma h_vm_pow v  v' : vm_pow powf v = Ok v' -> sameh v v'.
Proof. unfold vm_pow. intro H. kh H. Qed.
Lemma h_vm_unm v  v' : vm_unm v = Ok v' -> sameh v v'.
Proof. unfold vm_unm. intro H. kh H. Qed.
Lemma h_vm_logic v f v' : vm_logic v f = Ok v' -> sameh v v'.
Proof. unfold vm_logic. intro H. kh H. Qed.
Lemma h_vm_lnot v  v' : vm_lnot v = Ok v' -> sameh v v'.
Proof. unfold vm_lnot. intro H. kh H. Qed.
Lemma h_vm_bitwise v f v' : vm_bitwise v f = Ok v' -> sameh v v'.
Proof. unfold vm_bitwise. intro H. kh H. Qed.
Lemma h_vm_bnot v  v' : vm_bnot v = Ok v' -> sameh v v'.
Proof. unfold vm_bnot. intro H. kh H. Qed.
Lemma h_vm_cmp v f v' : vm_cmp powf v f = Ok v' -> sameh v v'.
Proof. unfold vm_cmp. intro H. kh H. Qed.
Lemma h_vm_gload v  v' : vm_gload v = Ok v' -> sameh v v'.
Proof. unfold vm_gload. intro H. kh H. Qed.
Lemma h_vm_gstore v  v' : vm_gstore v = Ok v' -> sameh v v'.
Proof. unfold vm_gstore. intro H. kh H. Qed.
Lemma h_vm_tget v  v' : vm_tget v = Ok v' -> sameh v v'.
Proof. unfold vm_tget. intro H. kh H. Qed.
Lemma h_vm_pushl v a v' : vm_pushl v a = Ok v' -> sameh v v'.
Proof. unfold vm_pushl. intro H. kh H. Qed.
Lemma h_vm_lload v a v' : vm_lload v a = Ok v' -> sameh v v'.
Proof. unfold vm_lload. intro H. kh H. Qed.
Lemma h_vm_lstore v a v' : vm_lstore v a = Ok v' -> sameh v v'.
Proof. unfold vm_lstore. intro H. kh H. Qed.
Lemma h_vm_lremove v a v' : vm_lremove v a = Ok v' -> sameh v v'.
Proof. unfold vm_lremove. intro H. kh H. Qed.
Lemma h_ret_to v r v' : ret_to v r = Ok v' -> sameh v v'.
Proof. unfold ret_to. intro H. kh H. Qed.
Lemma h_pop_lsyms v  v' : pop_lsyms v = Ok v' -> sameh v v'.
Proof. unfold pop_lsyms. intro H. kh H. Qed.
Lemma h_pop_stacks v  v' : pop_stacks v = Ok v' -> sameh v v'.
Proof. unfold pop_stacks. intro H. kh H. Qed.
Lemma h_ret0 v v' : vm_ret0 v = Ok v' -> sameh v v'.
Proof.
  unfold vm_ret0. destruct (pop_lsyms v) as [v1| | |] eqn:E1; cbn [bind]; try discriminate.
  destruct (pop_stacks v1) as [v2| | |] eqn:E2; cbn [bind]; try discriminate. intro H.
  apply h_pop_lsyms in E1. apply h_pop_stacks in E2. apply h_ret_to in H. unfold sameh in *. congruence.
Qed.
Lemma h_ret1 v v' : vm_ret1 v = Ok v' -> sameh v v'.
Proof.
  unfold vm_ret1, stack_assert. destruct (pop_lsyms v) as [v1| | |] eqn:E1; cbn [bind]; try discriminate.
  apply h_pop_lsyms in E1. destruct (_ <? 0); [intro H; inversion H; exact E1|]. destruct (stack v1); [discriminate|].
  destruct (pop_stacks v1) as [v2| | |] eqn:E2; cbn [bind]; try discriminate. intro H.
  apply h_pop_stacks in E2. apply h_ret_to in H. unfold sameh in *. congruence.
Qed.
Lemma h_inc v k v' : inc_pc size v k = Ok v' -> sameh v v' \/ k (bump v) = Ok v'.
Proof. unfold inc_pc, bump. destruct (pc_ok _ _); intro H; auto. left. inversion H; reflexivity. Qed.
Lemma h_arg v k v' : get_arg code size v k = Ok v' -> sameh v v' \/ exists w, k (set_pc v (v_pc v + 4)) w = Ok v'.
Proof. unfold get_arg. destruct (pc_ok _ _); intro H; eauto. left. inversion H; reflexivity. Qed.
Lemma h_op r v v' : op_inc size r = Ok v' -> (forall v1, r = Ok v1 -> sameh v v1) -> sameh v v'.
Proof.
  unfold op_inc. destruct r as [v1| | |]; cbn [bind]; try discriminate. intros H HK. apply h_inc in H as [H|H].
  - specialize (HK _ eq_refl). unfold sameh in *. congruence.
  - inversion H. subst. apply (HK _ eq_refl).
Qed.
Lemma h_if r k v v' : if_ready r k = Ok v' -> (forall v1, r = Ok v1 -> sameh v v1) -> (forall v1, k v1 = Ok v' -> sameh v1 v') -> sameh v v'.
Proof.
  unfold if_ready. destruct r as [v1| | |]; cbn [bind]; try discriminate. intros H HK Hk. specialize (HK _ eq_refl).
  destruct (is_ready _); [apply Hk in H|inversion H; subst]; unfold sameh in *; congruence.
Qed.
Lemma h_assert v v' : Ok (assert_pc size v) = Ok v' -> sameh v v'.
Proof. intro H. inversion H. unfold assert_pc. destruct (pc_ok _ _); reflexivity. Qed.
Lemma h_done v v' : inc_pc size v done_ = Ok v' -> sameh v v'.
Proof. intro H. apply h_inc in H as [H|H]; auto. inversion H. reflexivity. Qed.
Lemma h_pop v v' : Ok (vm_pop v) = Ok v' -> sameh v v'.
Proof. intro H. inversion H. unfold vm_pop. destruct (stack v); reflexivity. Qed.

Lemma h_call v w v' : vm_call v w = Ok v' -> sameh v v' \/ exists f v5, In f flist /\ v_heap v5 = v_heap v /\ f v5 = Ok v'.
Proof.
  unfold Vm.vm_call, stack_assert, type_assert. intros H.
  destruct (zlen (stack v) - 1 <? 0) eqn:E0; [inversion H; subst; left; reflexivity|].
  destruct (stack_at v 1) as [o| | |] eqn:E1; cbn [bind] in H; try discriminate.
  destruct (otype o =? T_INT) eqn:E2; [|inversion H; subst; left; reflexivity].
  destruct (stack v) as [|[| argn | | | | |] s0] eqn:ES; try discriminate.
  destruct (argn + 1 >=? 2 ^ 31) eqn:EO; [discriminate|].
  destruct (zlen (stack (set_stack v s0)) - (argn + 1) <? 0) eqn:E3; [inversion H; subst; left; reflexivity|].
  destruct (stack_at (set_stack v s0) (argn + 1)) as [c| | |] eqn:E4; cbn [bind] in H; try discriminate.
  destruct (otype c =? T_CLOSURE) eqn:E5; [|inversion H; subst; left; reflexivity].
  destruct c as [| | | | |native ref act|]; try discriminate.
  destruct (negb native && (zlen flist <=? ref)) eqn:E8; [inversion H; subst; left; reflexivity|].
  destruct native; cbv zeta in H.
  - inversion H. left. reflexivity.
  - destruct (ref <? 0); [discriminate|]. destruct (nth_error flist (Z.to_nat ref)) as [f|] eqn:EF; [|discriminate].
    right. do 2 eexists. split; [eapply nth_error_In; eassumption|]. split; [|exact H]. reflexivity.
Qed.

Lemma exec_heap o v v' : exec v o = Ok v' ->
  sameh v v' \/
  (o = I_PUSHT /\ v_heap v' = v_heap v ++ [tab_new]) \/
  (o = I_TPUT /\ exists x k a s t', stack v = x :: k :: OTab a :: s /\ 0 <= a /\ v_heap v' = upd (v_heap v) (Z.to_nat a) t') \/
  (exists f v5 v6, In f flist /\ v_heap v5 = v_heap v /\ f v5 = Ok v6 /\ sameh v6 v').
Proof.
  intros H. destruct o; cbn [Vm.exec] in H;
    try (left; apply h_done in H; exact H);
    try (left; eapply h_op; [exact H|]; intros v1 E1;
         eauto using h_vm_arith, h_vm_mod, h_vm_pow, h_vm_unm, h_vm_logic, h_vm_lnot, h_vm_bitwise, h_vm_bnot, h_vm_cmp; fail);
    try (left; eapply h_if; [exact H| |]; [eauto using h_ret0, h_ret1, h_vm_gstore, h_vm_tget, h_pop|eauto using h_assert, h_done]; fail);
    try (apply h_inc in H as [H|H]; [left; exact H|]);
    try (apply h_arg in H as [H|(w & H)]; [left; exact H|]);
    try (left; inversion H; reflexivity).
  - inversion H; subst. left. unfold vm_dup. destruct (stack _); reflexivity.
  - left. apply h_vm_gload in H. exact H.
  - left. apply h_vm_gstore in H. exact H.
  - right. left. split; auto. unfold op_inc in H. cbn [bind] in H. apply h_inc in H as [H|H]; [exact H|]. inversion H. reflexivity.
  - unfold if_ready in H. destruct (vm_tput v) as [v1| | |] eqn:E; cbn [bind] in H; try discriminate.
    assert (sameh v1 v') by (destruct (is_ready _); [apply h_done in H; auto|inversion H; reflexivity]).
    unfold vm_tput, stack_assert, type_assert, tab_at in E. brk E; inversion E; subst; clear E; unfold sameh in *; cbn [set_stack v_heap set_stacks err set_state tab_put set_heap] in *;
      try (left; congruence); right; right; left; split; auto; do 5 eexists; (split; [reflexivity|]); (split; [destruct (0 <=? a0) eqn:?; [lia|discriminate]|]); eassumption.
  - unfold if_ready in H. destruct (vm_call (bump v) false) as [v1| | |] eqn:E; cbn [bind] in H; try discriminate.
    assert (sameh v1 v') by (destruct (is_ready _); [apply h_assert in H; auto|inversion H; reflexivity]).
    apply h_call in E as [E|(f & v5 & E1 & E2 & E3)]; [left; unfold sameh in *; rewrite H0; exact E|].
    right. right. right. exists f, v5, v1. auto.
  - unfold if_ready in H. destruct (vm_call (bump v) true) as [v1| | |] eqn:E; cbn [bind] in H; try discriminate.
    assert (sameh v1 v') by (destruct (is_ready _); [apply h_assert in H; auto|inversion H; reflexivity]).
    apply h_call in E as [E|(f & v5 & E1 & E2 & E3)]; [left; unfold sameh in *; rewrite H0; exact E|].
    right. right. right. exists f, v5, v1. auto.
  - inversion H; subst. left. unfold vm_pushs. destruct (sm_get _ _); reflexivity.
  - left. apply h_vm_pushl in H. exact H.
  - left. apply h_vm_lload in H. exact H.
  - left. apply h_vm_lstore in H. exact H.
  - left. apply h_vm_lremove in H. exact H.
  - inversion H; subst. left. unfold assert_pc. destruct (pc_ok _ _); reflexivity.
  - left. unfold stack_assert in H. destruct (_ <? 0); [inversion H; reflexivity|].
    destruct (stack_at _ _) as [o| | |]; cbn [bind] in H; try discriminate. destruct (Bool.eqb _ _); [|apply h_pop in H; exact H].
    unfold assert_pc in H. destruct (pc_ok size (v_pc (set_pc _ _))); cbv zeta in H.
    + destruct (is_ready _); [apply h_pop in H; exact H|inversion H; reflexivity].
    + cbn [is_ready err set_state v_state] in H. inversion H; reflexivity.
  - left. unfold stack_assert in H. destruct (_ <? 0); [inversion H; reflexivity|].
    destruct (stack_at _ _) as [o| | |]; cbn [bind] in H; try discriminate. destruct (Bool.eqb _ _); [|apply h_pop in H; exact H].
    unfold assert_pc in H. destruct (pc_ok size (v_pc (set_pc _ _))); cbv zeta in H.
    + destruct (is_ready _); [apply h_pop in H; exact H|inversion H; reflexivity].
    + cbn [is_ready err set_state v_state] in H. inversion H; reflexivity.
Qed.
End P.
