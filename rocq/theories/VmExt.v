(** The extensions of the VM (listeners, queues, ...) change only through C functions. *)
From Verif Require Import Base ListLemmas Float Dict PDict Strman Obj Instr Vm VmSpec VmProofs VmFrames.

Section P.
Context {X : Type}.
Notation vm := (vm X).
Implicit Types v : vm.
Variable flist : list (vm -> res vm).
Variable powf : libm.
Variable code : Z -> Z.
Variable size : Z.
Notation exec := (exec flist powf code size).
Notation vm_step := (vm_step flist powf code size).
Notation vm_steps := (vm_steps flist powf code size).
Notation vm_call := (vm_call flist).


Definition samex v v' : Prop := v_ext v' = v_ext v.
Ltac kx H := unfold stack_assert, type_assert, stack_at in H; brk H; inversion H; subst; clear H; reflexivity.
Lemma x_vm_arith v i f v' : vm_arith v i f = Ok v' -> samex v v'.
Proof. unfold vm_arith. intro H. kx H. Qed.
Lemma x_vm_mod v  v' : vm_mod v = Ok v' -> samex v v'.
Proof. unfold vm_mod. intro H. kx H. Qed.
Lemma x_vm_pow v  v' : vm_pow powf v = Ok v' -> samex v v'.
Proof. unfold vm_pow. intro H. kx H. Qed.
Lemma x_vm_unm v  v' : vm_unm v = Ok v' -> samex v v'.
Proof. unfold vm_unm. intro H. kx H. Qed.
Lemma x_vm_logic v f v' : vm_logic v f = Ok v' -> samex v v'.
Proof. unfold vm_logic. intro H. kx H. Qed.
Lemma x_vm_lnot v  v' : vm_lnot v = Ok v' -> samex v v'.
Proof. unfold vm_lnot. intro H. kx H. Qed.
Lemma x_vm_bitwise v f v' : vm_bitwise v f = Ok v' -> samex v v'.
Proof. unfold vm_bitwise. intro H. kx H. Qed.
Lemma x_vm_bnot v  v' : vm_bnot v = Ok v' -> samex v v'.
Proof. unfold vm_bnot. intro H. kx H. Qed.
Lemma x_vm_cmp v f v' : vm_cmp powf v f = Ok v' -> samex v v'.
Proof. unfold vm_cmp. intro H. kx H. Qed.
Lemma x_vm_gload v  v' : vm_gload v = Ok v' -> samex v v'.
Proof. unfold vm_gload. intro H. kx H. Qed.
Lemma x_vm_tput v  v' : vm_tput v = Ok v' -> samex v v'.
Proof. unfold vm_tput. intro H. kx H. Qed.
Lemma x_vm_tget v  v' : vm_tget v = Ok v' -> samex v v'.
Proof. unfold vm_tget. intro H. kx H. Qed.
Lemma x_vm_pushl v a v' : vm_pushl v a = Ok v' -> samex v v'.
Proof. unfold vm_pushl. intro H. kx H. Qed.
Lemma x_vm_lload v a v' : vm_lload v a = Ok v' -> samex v v'.
Proof. unfold vm_lload. intro H. kx H. Qed.
Lemma x_vm_lstore v a v' : vm_lstore v a = Ok v' -> samex v v'.
Proof. unfold vm_lstore. intro H. kx H. Qed.
Lemma x_vm_lremove v a v' : vm_lremove v a = Ok v' -> samex v v'.
Proof. unfold vm_lremove. intro H. kx H. Qed.
Lemma x_ret_to v r v' : ret_to v r = Ok v' -> samex v v'.
Proof. unfold ret_to. intro H. kx H. Qed.
Lemma x_pop_lsyms v  v' : pop_lsyms v = Ok v' -> samex v v'.
Proof. unfold pop_lsyms. intro H. kx H. Qed.
Lemma x_pop_stacks v  v' : pop_stacks v = Ok v' -> samex v v'.
Proof. unfold pop_stacks. intro H. kx H. Qed.
Lemma x_ret0 v v' : vm_ret0 v = Ok v' -> samex v v'.
Proof.
  unfold vm_ret0. destruct (pop_lsyms v) as [v1| | |] eqn:E1; cbn [bind]; try discriminate.
  destruct (pop_stacks v1) as [v2| | |] eqn:E2; cbn [bind]; try discriminate. intro H.
  apply x_pop_lsyms in E1. apply x_pop_stacks in E2. apply x_ret_to in H. unfold samex in *. congruence.
Qed.
Lemma x_ret1 v v' : vm_ret1 v = Ok v' -> samex v v'.
Proof.
  unfold vm_ret1, stack_assert. destruct (pop_lsyms v) as [v1| | |] eqn:E1; cbn [bind]; try discriminate.
  apply x_pop_lsyms in E1. destruct (_ <? 0); [intro H; inversion H; exact E1|]. destruct (stack v1); [discriminate|].
  destruct (pop_stacks v1) as [v2| | |] eqn:E2; cbn [bind]; try discriminate. intro H.
  apply x_pop_stacks in E2. apply x_ret_to in H. unfold samex in *. congruence.
Qed.
Lemma x_inc v k v' : inc_pc size v k = Ok v' -> samex v v' \/ k (bump v) = Ok v'.
Proof. unfold inc_pc, bump. destruct (pc_ok _ _); intro H; auto. left. inversion H; reflexivity. Qed.
Lemma x_arg v k v' : get_arg code size v k = Ok v' -> samex v v' \/ exists w, k (set_pc v (v_pc v + 4)) w = Ok v'.
Proof. unfold get_arg. destruct (pc_ok _ _); intro H; eauto. left. inversion H; reflexivity. Qed.
Lemma x_op r v v' : op_inc size r = Ok v' -> (forall v1, r = Ok v1 -> samex v v1) -> samex v v'.
Proof.
  unfold op_inc. destruct r as [v1| | |]; cbn [bind]; try discriminate. intros H HK. apply x_inc in H as [H|H].
  - specialize (HK _ eq_refl). unfold samex in *. congruence.
  - inversion H. subst. apply (HK _ eq_refl).
Qed.
Lemma x_if r k v v' : if_ready r k = Ok v' -> (forall v1, r = Ok v1 -> samex v v1) -> (forall v1, k v1 = Ok v' -> samex v1 v') -> samex v v'.
Proof.
  unfold if_ready. destruct r as [v1| | |]; cbn [bind]; try discriminate. intros H HK Hk. specialize (HK _ eq_refl).
  destruct (is_ready _); [apply Hk in H|inversion H; subst]; unfold samex in *; congruence.
Qed.
Lemma x_assert v v' : Ok (assert_pc size v) = Ok v' -> samex v v'.
Proof. intro H. inversion H. unfold assert_pc. destruct (pc_ok _ _); reflexivity. Qed.
Lemma x_done v v' : inc_pc size v done_ = Ok v' -> samex v v'.
Proof. intro H. apply x_inc in H as [H|H]; auto. inversion H. reflexivity. Qed.
Lemma x_pop v v' : Ok (vm_pop v) = Ok v' -> samex v v'.
Proof. intro H. inversion H. unfold vm_pop. destruct (stack v); reflexivity. Qed.

Lemma x_call v w v' : vm_call v w = Ok v' -> samex v v' \/ exists f v5, In f flist /\ v_ext v5 = v_ext v /\ f v5 = Ok v'.
Proof.
  unfold Vm.vm_call, stack_assert, type_assert. intros H.
  destruct (zlen (stack v) - 1 <? 0) eqn:E0; [inversion H; subst; left; reflexivity|].
  destruct (stack_at v 1) as [o| | |] eqn:E1; cbn [bind] in H; try discriminate.
  destruct (otype o =? T_INT) eqn:E2; [|inversion H; subst; left; reflexivity].
  destruct (stack v) as [|[| argn | | | | |] s0] eqn:ES; try discriminate.
  destruct (argn + 1 >=? 2 ^ 31) eqn:EO; [discriminate|].
  destruct (zlen (stack (set_stack v s0)) - (argn + 1) <? 0) eqn:E3; [inversion H; subst; left; reflexivity|].
  destruct (stack_at (set_stack v s0) (argn + 1)) as [c| | |] eqn:E4; cbn [bind] in H; try discriminate.
  destruct (otype c =? T_CLOSURE) eqn:E5; [|inversion H; subst; left; reflexivity].
  destruct c as [| | | | |native ref act|]; try discriminate.
  destruct (negb native && (zlen flist <=? ref)) eqn:E8; [inversion H; subst; left; reflexivity|].
  destruct native; cbv zeta in H.
  - inversion H. left. reflexivity.
  - destruct (ref <? 0); [discriminate|]. destruct (nth_error flist (Z.to_nat ref)) as [f|] eqn:EF; [|discriminate].
    right. do 2 eexists. split; [eapply nth_error_In; eassumption|]. split; [|exact H]. reflexivity.
Qed.

Lemma exec_ext o v v' : exec v o = Ok v' ->
  samex v v' \/
  (exists f v5 v6, In f flist /\ v_ext v5 = v_ext v /\ f v5 = Ok v6 /\ samex v6 v').
Proof.
  intros H. destruct o; cbn [Vm.exec] in H;
    try (left; apply x_done in H; exact H);
    try (left; eapply x_op; [exact H|]; intros v1 E1;
         eauto using x_vm_arith, x_vm_mod, x_vm_pow, x_vm_unm, x_vm_logic, x_vm_lnot, x_vm_bitwise, x_vm_bnot, x_vm_cmp; fail);
    try (left; eapply x_if; [exact H| |]; [eauto using x_ret0, x_ret1, x_vm_tput, x_vm_tget, x_pop|eauto using x_assert, x_done]; fail);
    try (apply x_inc in H as [H|H]; [left; exact H|]);
    try (apply x_arg in H as [H|(w & H)]; [left; exact H|]);
    try (left; inversion H; reflexivity).
  - inversion H; subst. left. unfold vm_dup. destruct (stack _); reflexivity.
  - left. apply x_vm_gload in H. exact H.
  - unfold vm_gstore, stack_assert, type_assert, stack_at in H. brk H; inversion H; subst; left; reflexivity.
  - unfold if_ready in H. destruct (vm_call (bump v) false) as [v1| | |] eqn:E; cbn [bind] in H; try discriminate.
    assert (samex v1 v') by (destruct (is_ready _); [apply x_assert in H; auto|inversion H; reflexivity]).
    apply x_call in E as [E|(f & v5 & E1 & E2 & E3)]; [left; unfold samex in *; rewrite H0; exact E|].
    right. exists f, v5, v1. auto.
  - unfold if_ready in H. destruct (vm_call (bump v) true) as [v1| | |] eqn:E; cbn [bind] in H; try discriminate.
    assert (samex v1 v') by (destruct (is_ready _); [apply x_assert in H; auto|inversion H; reflexivity]).
    apply x_call in E as [E|(f & v5 & E1 & E2 & E3)]; [left; unfold samex in *; rewrite H0; exact E|].
    right. exists f, v5, v1. auto.
  - inversion H; subst. left. unfold vm_pushs. destruct (sm_get _ _); reflexivity.
  - left. apply x_vm_pushl in H. exact H.
  - left. apply x_vm_lload in H. exact H.
  - left. apply x_vm_lstore in H. exact H.
  - left. apply x_vm_lremove in H. exact H.
  - inversion H; subst. left. unfold assert_pc. destruct (pc_ok _ _); reflexivity.
  - left. unfold stack_assert in H. destruct (_ <? 0); [inversion H; reflexivity|].
    destruct (stack_at _ _) as [o| | |]; cbn [bind] in H; try discriminate. destruct (Bool.eqb _ _); [|apply x_pop in H; exact H].
    unfold assert_pc in H. destruct (pc_ok size (v_pc (set_pc _ _))); cbv zeta in H.
    + destruct (is_ready _); [apply x_pop in H; exact H|inversion H; reflexivity].
    + cbn [is_ready err set_state v_state] in H. inversion H; reflexivity.
  - left. unfold stack_assert in H. destruct (_ <? 0); [inversion H; reflexivity|].
    destruct (stack_at _ _) as [o| | |]; cbn [bind] in H; try discriminate. destruct (Bool.eqb _ _); [|apply x_pop in H; exact H].
    unfold assert_pc in H. destruct (pc_ok size (v_pc (set_pc _ _))); cbv zeta in H.
    + destruct (is_ready _); [apply x_pop in H; exact H|inversion H; reflexivity].
    + cbn [is_ready err set_state v_state] in H. inversion H; reflexivity.
Qed.



Lemma step_ext v v' : vm_step v = Ok v' ->
  samex v v' \/ exists f v5 v6, In f flist /\ v_ext v5 = v_ext v /\ f v5 = Ok v6 /\ samex v6 v'.
Proof.
  intro H. apply step_inv in H as [[H ->]|[(H & _ & ->)|(o & H1 & H2 & H3)]]; [left; reflexivity|left; reflexivity|].
  apply exec_ext in H3. exact H3.
Qed.

(** A part of the extensions that no C function changes. *)
Section Part.
Context {Y : Type}.
Variable part : X -> Y.
Hypothesis HF : forall f v v', In f flist -> f v = Ok v' -> part (v_ext v') = part (v_ext v).
Lemma step_part v v' : vm_step v = Ok v' -> part (v_ext v') = part (v_ext v).
Proof.
  intro H. apply step_ext in H as [H|(f & v5 & v6 & H1 & H2 & H3 & H4)]; unfold samex in *; [congruence|].
  rewrite H4, <- H2. apply (HF f); auto.
Qed.
Lemma call_part v w v' : vm_call v w = Ok v' -> part (v_ext v') = part (v_ext v).
Proof.
  intro H. apply x_call in H as [H|(f & v5 & H1 & H2 & H3)]; [unfold samex in H; congruence|]. rewrite <- H2. apply (HF f); auto.
Qed.
Lemma steps_part n : forall v v', vm_steps n v = Ok v' -> part (v_ext v') = part (v_ext v).
Proof.
  induction n as [|n IH]; intros v v' H; cbn [Vm.vm_steps] in H; [inversion H; auto|].
  destruct (vm_step v) as [v1| | |] eqn:E; cbn [bind] in H; try discriminate. rewrite (IH _ _ H). apply step_part. auto.
Qed.
Lemma until_part fuel d : forall v v', step_until flist powf code size fuel d v = Ok v' -> part (v_ext v') = part (v_ext v).
Proof.
  induction fuel as [|fuel IH]; intros v v' H; cbn [step_until] in H; [discriminate|].
  destruct (vm_step v) as [v1| | |] eqn:E; cbn [bind] in H; try discriminate. rewrite <- (step_part _ _ E).
  destruct (negb _); [inversion H; auto|]. destruct (_ <? _); [auto|inversion H; auto].
Qed.
Lemma closure_call_part fuel v argc v' : closure_call flist powf code size fuel v argc = Ok v' -> part (v_ext v') = part (v_ext v).
Proof.
  unfold closure_call. destruct (_ <? _); [intro H; inversion H; reflexivity|]. cbv zeta.
  match goal with |- context [Vm.vm_call flist ?x false] => set (v1 := x) end.
  destruct (vm_call v1 false) as [v2| | |] eqn:E; cbn [bind]; try discriminate. intro H. rewrite (until_part _ _ _ _ H). apply call_part in E. exact E.
Qed.
End Part.
End P.
