From Verif Require Import Base ListLemmas Float Dict PDict Strman Obj Instr Vm VmSpec VmProofs.

Section P.
Context {X : Type}.
Notation vm := (vm X).
Implicit Types v : vm.
Variable flist : list (vm -> res vm).
Variable powf : libm.
Variable code : Z -> Z.
Variable size : Z.
Notation exec := (exec flist powf code size).
Notation vm_step := (vm_step flist powf code size).
Notation vm_steps := (vm_steps flist powf code size).
Notation vm_call := (vm_call flist).
Notation frames := (frames flist code).
Hypothesis HC : Forall c_function_ok flist.

Lemma opcode_num b o : opcode_of b = Some o -> 0 <= b -> b = opnum o.
Proof.
  unfold opcode_of. intros H Hb. assert (HL : (Z.to_nat b < 47)%nat) by (change 47%nat with (length opcodes); apply nth_error_Some; congruence).
  replace b with (Z.of_nat (Z.to_nat b)) by lia. revert H. generalize (Z.to_nat b) HL. clear. intros n HL H.
  do 47 (destruct n as [|n]; [inversion H; reflexivity|]). lia.
Qed.

Lemma step_ready v v' : vm_step v = Ok v' -> v_state v' = S_READY ->
  v_state v = S_READY /\ exists o, opcode_of (code (v_pc v)) = Some o /\ exec v o = Ok v'.
Proof.
  intros H HR. apply step_inv in H as [[H ->]|[(H & _ & ->)|(o & H1 & H2 & H3)]]; [congruence|discriminate|eauto].
Qed.

Lemma frames_nonempty o v v' : nonempty v -> frames o v v' -> v_state v' = S_READY -> nonempty v'.
Proof.
  unfold nonempty. intros HN HF HR. destruct HF; try (rewrite HS; discriminate).
  - pose proof (proj1 (Forall_forall _ _) HC f HI) as Hf. destruct (Hf _ _ _ _ _ _ _ HS HL HF HR) as (r & E & _). rewrite E. discriminate.
  - rewrite HS'. discriminate.
Qed.

(** ** The part of the stacks that belongs to a caller *)
Definition below (base : list (list obj)) (L : list lsyms) v : Prop :=
  exists pre preL, v_stacks v = pre ++ base /\ v_lsymts v = preL ++ L /\ length pre = length preL /\ pre <> [].

Lemma below_nonempty base L v : below base L v -> nonempty v.
Proof. intros (pre & preL & HS & _ & _ & HN). unfold nonempty. rewrite HS. destruct pre; [congruence|discriminate]. Qed.

Lemma below_step ra s rest L o v v' : below ((OInt ra :: s) :: rest) L v -> exec v o = Ok v' -> v_state v' = S_READY ->
  below ((OInt ra :: s) :: rest) L v' \/
  exists top r, v_stacks v = top :: (OInt ra :: s) :: rest /\ v_stacks v' = (r :: s) :: rest /\ v_lsymts v' = L /\ v_pc v' = ra /\
    ((o = I_RET0 /\ r = ONil) \/ (o = I_RET1 /\ hd_error top = Some r)).
Proof.
  intros HB HE HR. pose proof (below_nonempty _ _ _ HB) as HN. pose proof (exec_frames _ _ _ _ _ _ _ HN HE HR) as HF.
  destruct HB as (pre & preL & HS0 & HL0 & HLen & HP). destruct pre as [|p pre]; [congruence|]. destruct preL as [|l preL]; [discriminate|].
  destruct HF.
  - left. rewrite HS0 in HS. cbn in HS. destruct HL as [HL|(ls & t & l' & H1 & H2 & _)].
    + exists (s0 :: pre), (l :: preL). rewrite HS, HL, HL0. repeat split; auto. discriminate.
    + rewrite HL0 in H1. cbn in H1. inversion H1; subst ls t. exists (s0 :: pre), (mkLs l' (ls_swarm l) :: preL). rewrite HS, H2. repeat split; auto. discriminate.
  - left. rewrite HS0 in HS. rewrite HL0 in HL. cbn in HS. exists ([] :: (OInt (v_pc v + 1) :: s0) :: pre), (ls :: l :: preL).
    rewrite HS, HL. cbn in *. repeat split; auto. discriminate.
  - left. pose proof (proj1 (Forall_forall _ _) HC f HI) as Hf. destruct (Hf _ _ _ _ _ _ _ HS HL HF HR) as (r & E1 & E2 & _).
    rewrite HS0 in E1. cbn in E1. exists ((r :: s0) :: pre), (l :: preL). rewrite E1, E2, HL0. repeat split; auto. discriminate.
  - rewrite HS0 in HS. rewrite HL0 in HL. cbn in HS, HL. inversion HS; subst p. inversion HL; subst ls. destruct pre as [|p pre]; cbn in H1.
    + right. destruct preL; [|discriminate]. inversion H1; subst. exists top, r. cbn in *. repeat split; auto.
    + left. destruct preL as [|l1 preL]; [discriminate|]. inversion H1; subst. exists ((r :: s0) :: pre), (l1 :: preL).
      rewrite HS', <- H2. cbn in *. repeat split; auto. discriminate.
Qed.

(** The states on the way to a state that is ready are ready. *)
Lemma steps_prefix n : forall m v v', (m <= n)%nat -> vm_steps n v = Ok v' -> exists v1, vm_steps m v = Ok v1 /\ vm_steps (n - m) v1 = Ok v'.
Proof.
  intros m v v' Hm H. replace n with (m + (n - m))%nat in H by lia. rewrite steps_app in H.
  destruct (vm_steps m v) as [v1| | |]; cbn [bind] in H; try discriminate. eauto.
Qed.
Lemma steps_prefix_ready n m v v' : (m <= n)%nat -> vm_steps n v = Ok v' -> v_state v' = S_READY ->
  exists v1, vm_steps m v = Ok v1 /\ v_state v1 = S_READY.
Proof.
  intros Hm H HR. destruct (steps_prefix n m v v' Hm H) as (v1 & H1 & H2). exists v1. split; auto.
  destruct (v_state v1) eqn:E; auto; rewrite steps_stopped in H2 by congruence; congruence.
Qed.

Lemma below_steps ra s rest L n : forall v v',
  below ((OInt ra :: s) :: rest) L v -> vm_steps n v = Ok v' -> v_state v' = S_READY ->
  (forall m w, (m < n)%nat -> vm_steps m v = Ok w -> (S (length rest) < length (v_stacks w))%nat) ->
  below ((OInt ra :: s) :: rest) L v' \/
  exists r vl o, n <> O /\ vm_steps (n - 1) v = Ok vl /\ v_state vl = S_READY /\ opcode_of (code (v_pc vl)) = Some o /\
    v_stacks v' = (r :: s) :: rest /\ v_lsymts v' = L /\ v_pc v' = ra /\
    ((o = I_RET0 /\ r = ONil) \/ (o = I_RET1 /\ hd_error (stack vl) = Some r)).
Proof.
  induction n as [|n IH]; intros v v' HB HS HR HD.
  - inversion HS; subst. left. auto.
  - rewrite steps_snoc in HS. destruct (vm_steps n v) as [w| | |] eqn:E; cbn [bind] in HS; try discriminate.
    pose proof (step_ready _ _ HS HR) as (HRw & o & HO & HX).
    destruct (IH v w HB E HRw) as [HBw|(r & vl & o' & _ & _ & _ & _ & HS' & _)].
    + intros m w' Hm. apply HD. lia.
    + destruct (below_step _ _ _ _ _ _ _ HBw HX HR) as [HB'|(top & r & H1 & H2 & H3 & H4 & H5)]; [left; auto|].
      right. exists r, w, o. replace (S n - 1)%nat with n by lia. split; [lia|]. split; [auto|]. split; [auto|]. split; [auto|].
      split; [auto|]. split; [auto|]. split; [auto|]. unfold stack. rewrite H1. cbn. auto.
    + exfalso. specialize (HD n w). rewrite HS' in HD. cbn in HD. specialize (HD ltac:(lia) E). lia.
Qed.

(** ** Globals *)
Definition sameg v v' : Prop := v_gsyms v' = v_gsyms v.
Ltac kg H := unfold stack_assert, type_assert, stack_at in H; brk H; inversion H; subst; clear H; reflexivity.
Lemma g_vm_arith v i f v' : vm_arith v i f = Ok v' -> sameg v v'.
Proof. unfold vm_arith. intro H. kg H. Qed.
Lemma g_vm_mod v  v' : vm_mod v = Ok v' -> sameg v v'.
Proof. unfold vm_mod. intro H. kg H. Qed.
Lemma g_vm_pow v  v' : vm_pow powf v = Ok v' -> sameg v v'.
Proof. unfold vm_pow. intro H. kg H. Qed.
Lemma g_vm_unm v  v' : vm_unm v = Ok v' -> sameg v v'.
Proof. unfold vm_unm. intro H. kg H. Qed.
Lemma g_vm_logic v f v' : vm_logic v f = Ok v' -> sameg v v'.
Proof. unfold vm_logic. intro H. kg H. Qed.
Lemma g_vm_lnot v  v' : vm_lnot v = Ok v' -> sameg v v'.
Proof. unfold vm_lnot. intro H. kg H. Qed.
Lemma g_vm_bitwise v f v' : vm_bitwise v f = Ok v' -> sameg v v'.
Proof. unfold vm_bitwise. intro H. kg H. Qed.
Lemma g_vm_bnot v  v' : vm_bnot v = Ok v' -> sameg v v'.
Proof. unfold vm_bnot. intro H. kg H. Qed.
Lemma g_vm_cmp v f v' : vm_cmp powf v f = Ok v' -> sameg v v'.
Proof. unfold vm_cmp. intro H. kg H. Qed.
Lemma g_vm_gload v  v' : vm_gload v = Ok v' -> sameg v v'.
Proof. unfold vm_gload. intro H. kg H. Qed.
Lemma g_vm_tput v  v' : vm_tput v = Ok v' -> sameg v v'.
Proof. unfold vm_tput. intro H. kg H. Qed.
Lemma g_vm_tget v  v' : vm_tget v = Ok v' -> sameg v v'.
Proof. unfold vm_tget. intro H. kg H. Qed.
Lemma g_vm_pushl v a v' : vm_pushl v a = Ok v' -> sameg v v'.
Proof. unfold vm_pushl. intro H. kg H. Qed.
Lemma g_vm_lload v a v' : vm_lload v a = Ok v' -> sameg v v'.
Proof. unfold vm_lload. intro H. kg H. Qed.
Lemma g_vm_lstore v a v' : vm_lstore v a = Ok v' -> sameg v v'.
Proof. unfold vm_lstore. intro H. kg H. Qed.
Lemma g_vm_lremove v a v' : vm_lremove v a = Ok v' -> sameg v v'.
Proof. unfold vm_lremove. intro H. kg H. Qed.
Lemma g_ret_to v r v' : ret_to v r = Ok v' -> sameg v v'.
Proof. unfold ret_to. intro H. kg H. Qed.
Lemma g_pop_lsyms v  v' : pop_lsyms v = Ok v' -> sameg v v'.
Proof. unfold pop_lsyms. intro H. kg H. Qed.
Lemma g_pop_stacks v  v' : pop_stacks v = Ok v' -> sameg v v'.
Proof. unfold pop_stacks. intro H. kg H. Qed.
Lemma g_ret0 v v' : vm_ret0 v = Ok v' -> sameg v v'.
Proof.
  unfold vm_ret0. destruct (pop_lsyms v) as [v1| | |] eqn:E1; cbn [bind]; try discriminate.
  destruct (pop_stacks v1) as [v2| | |] eqn:E2; cbn [bind]; try discriminate. intro H.
  apply g_pop_lsyms in E1. apply g_pop_stacks in E2. apply g_ret_to in H. unfold sameg in *. congruence.
Qed.
Lemma g_ret1 v v' : vm_ret1 v = Ok v' -> sameg v v'.
Proof.
  unfold vm_ret1, stack_assert. destruct (pop_lsyms v) as [v1| | |] eqn:E1; cbn [bind]; try discriminate.
  apply g_pop_lsyms in E1. destruct (_ <? 0); [intro H; inversion H; exact E1|]. destruct (stack v1); [discriminate|].
  destruct (pop_stacks v1) as [v2| | |] eqn:E2; cbn [bind]; try discriminate. intro H.
  apply g_pop_stacks in E2. apply g_ret_to in H. unfold sameg in *. congruence.
Qed.
Lemma g_inc v k v' : inc_pc size v k = Ok v' -> sameg v v' \/ k (bump v) = Ok v'.
Proof. unfold inc_pc, bump. destruct (pc_ok _ _); intro H; auto. left. inversion H; reflexivity. Qed.
Lemma g_arg v k v' : get_arg code size v k = Ok v' -> sameg v v' \/ exists w, k (set_pc v (v_pc v + 4)) w = Ok v'.
Proof. unfold get_arg. destruct (pc_ok _ _); intro H; eauto. left. inversion H; reflexivity. Qed.
Lemma g_op r v v' : op_inc size r = Ok v' -> (forall v1, r = Ok v1 -> sameg v v1) -> sameg v v'.
Proof.
  unfold op_inc. destruct r as [v1| | |]; cbn [bind]; try discriminate. intros H HK. apply g_inc in H as [H|H].
  - specialize (HK _ eq_refl). unfold sameg in *. congruence.
  - inversion H. subst. apply (HK _ eq_refl).
Qed.
Lemma g_if r k v v' : if_ready r k = Ok v' -> (forall v1, r = Ok v1 -> sameg v v1) -> (forall v1, k v1 = Ok v' -> sameg v1 v') -> sameg v v'.
Proof.
  unfold if_ready. destruct r as [v1| | |]; cbn [bind]; try discriminate. intros H HK Hk. specialize (HK _ eq_refl).
  destruct (is_ready _); [apply Hk in H|inversion H; subst]; unfold sameg in *; congruence.
Qed.
Lemma g_assert v v' : Ok (assert_pc size v) = Ok v' -> sameg v v'.
Proof. intro H. inversion H. unfold assert_pc. destruct (pc_ok _ _); reflexivity. Qed.
Lemma g_done v v' : inc_pc size v done_ = Ok v' -> sameg v v'.
Proof. intro H. apply g_inc in H as [H|H]; auto. inversion H. reflexivity. Qed.
Lemma g_pop v v' : Ok (vm_pop v) = Ok v' -> sameg v v'.
Proof. intro H. inversion H. unfold vm_pop. destruct (stack v); reflexivity. Qed.

Lemma g_call v w v' : vm_call v w = Ok v' -> sameg v v' \/ exists f v5, In f flist /\ v_gsyms v5 = v_gsyms v /\ f v5 = Ok v'.
Proof.
  unfold Vm.vm_call, stack_assert, type_assert. intros H.
  destruct (zlen (stack v) - 1 <? 0) eqn:E0; [inversion H; subst; left; reflexivity|].
  destruct (stack_at v 1) as [o| | |] eqn:E1; cbn [bind] in H; try discriminate.
  destruct (otype o =? T_INT) eqn:E2; [|inversion H; subst; left; reflexivity].
  destruct (stack v) as [|[| argn | | | | |] s0] eqn:ES; try discriminate.
  destruct (argn + 1 >=? 2 ^ 31) eqn:EO; [discriminate|].
  destruct (zlen (stack (set_stack v s0)) - (argn + 1) <? 0) eqn:E3; [inversion H; subst; left; reflexivity|].
  destruct (stack_at (set_stack v s0) (argn + 1)) as [c| | |] eqn:E4; cbn [bind] in H; try discriminate.
  destruct (otype c =? T_CLOSURE) eqn:E5; [|inversion H; subst; left; reflexivity].
  destruct c as [| | | | |native ref act|]; try discriminate.
  destruct (negb native && (zlen flist <=? ref)) eqn:E8; [inversion H; subst; left; reflexivity|].
  destruct native; cbv zeta in H.
  - inversion H. left. reflexivity.
  - destruct (ref <? 0); [discriminate|]. destruct (nth_error flist (Z.to_nat ref)) as [f|] eqn:EF; [|discriminate].
    right. do 2 eexists. split; [eapply nth_error_In; eassumption|]. split; [|exact H]. reflexivity.
Qed.

Lemma exec_gsyms o v v' : exec v o = Ok v' ->
  sameg v v' \/
  (o = I_GSTORE /\ exists x sid str s, stack v = x :: OStr sid str :: s /\ v_gsyms v' = gsym_set (v_gsyms v) sid x) \/
  (exists f v5 v6, In f flist /\ v_gsyms v5 = v_gsyms v /\ f v5 = Ok v6 /\ sameg v6 v').
Proof.
  intros H. destruct o; cbn [Vm.exec] in H;
    try (left; apply g_done in H; exact H);
    try (left; eapply g_op; [exact H|]; intros v1 E1;
         eauto using g_vm_arith, g_vm_mod, g_vm_pow, g_vm_unm, g_vm_logic, g_vm_lnot, g_vm_bitwise, g_vm_bnot, g_vm_cmp; fail);
    try (left; eapply g_if; [exact H| |]; [eauto using g_ret0, g_ret1, g_vm_tput, g_vm_tget, g_pop|eauto using g_assert, g_done]; fail);
    try (apply g_inc in H as [H|H]; [left; exact H|]);
    try (apply g_arg in H as [H|(w & H)]; [left; exact H|]);
    try (left; inversion H; reflexivity).
  - inversion H; subst. left. unfold vm_dup. destruct (stack _); reflexivity.
  - left. apply g_vm_gload in H. exact H.
  - unfold vm_gstore, stack_assert, type_assert, stack_at in H. brk H; inversion H; subst; try (left; reflexivity).
    right. left. split; auto. do 4 eexists. split; [eassumption|reflexivity].
  - unfold if_ready in H. destruct (vm_call (bump v) false) as [v1| | |] eqn:E; cbn [bind] in H; try discriminate.
    assert (sameg v1 v') by (destruct (is_ready _); [apply g_assert in H; auto|inversion H; reflexivity]).
    apply g_call in E as [E|(f & v5 & E1 & E2 & E3)]; [left; unfold sameg in *; rewrite H0; exact E|].
    right. right. exists f, v5, v1. auto.
  - unfold if_ready in H. destruct (vm_call (bump v) true) as [v1| | |] eqn:E; cbn [bind] in H; try discriminate.
    assert (sameg v1 v') by (destruct (is_ready _); [apply g_assert in H; auto|inversion H; reflexivity]).
    apply g_call in E as [E|(f & v5 & E1 & E2 & E3)]; [left; unfold sameg in *; rewrite H0; exact E|].
    right. right. exists f, v5, v1. auto.
  - inversion H; subst. left. unfold vm_pushs. destruct (sm_get _ _); reflexivity.
  - left. apply g_vm_pushl in H. exact H.
  - left. apply g_vm_lload in H. exact H.
  - left. apply g_vm_lstore in H. exact H.
  - left. apply g_vm_lremove in H. exact H.
  - inversion H; subst. left. unfold assert_pc. destruct (pc_ok _ _); reflexivity.
  - left. unfold stack_assert in H. destruct (_ <? 0); [inversion H; reflexivity|].
    destruct (stack_at _ _) as [o| | |]; cbn [bind] in H; try discriminate. destruct (Bool.eqb _ _); [|apply g_pop in H; exact H].
    unfold assert_pc in H. destruct (pc_ok size (v_pc (set_pc _ _))); cbv zeta in H.
    + destruct (is_ready _); [apply g_pop in H; exact H|inversion H; reflexivity].
    + cbn [is_ready err set_state v_state] in H. inversion H; reflexivity.
  - left. unfold stack_assert in H. destruct (_ <? 0); [inversion H; reflexivity|].
    destruct (stack_at _ _) as [o| | |]; cbn [bind] in H; try discriminate. destruct (Bool.eqb _ _); [|apply g_pop in H; exact H].
    unfold assert_pc in H. destruct (pc_ok size (v_pc (set_pc _ _))); cbv zeta in H.
    + destruct (is_ready _); [apply g_pop in H; exact H|inversion H; reflexivity].
    + cbn [is_ready err set_state v_state] in H. inversion H; reflexivity.
Qed.
End P.
