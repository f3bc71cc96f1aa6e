From Verif Require Import Base ListLemmas Float Dict DictSpec PDict DictProofs PDictKeys Strman Obj ObjSpec ObjProofs Instr Vm VmSpec.

(** Case analysis on every test of a hypothesis of the form [... = Ok v']. *)
Ltac brk1 H :=
  match type of H with
  | context [bind ?x _] => let E := fresh "Eb" in destruct x eqn:E
  | context [match ?x with _ => _ end] => let E := fresh "Eb" in destruct x eqn:E
  end.
Ltac brk H :=
  repeat (cbn [bind] in H; first [discriminate H | brk1 H]); cbn [bind] in H.

Lemma opcode_of_opnum o : opcode_of (opnum o) = Some o.
Proof. destruct o; reflexivity. Qed.

Section P.
Context {X : Type}.
Notation vm := (vm X).
Implicit Types v : vm.
Variable flist : list (vm -> res vm).
Variable powf : libm.
Variable code : Z -> Z.
Variable size : Z.
Notation exec := (exec flist powf code size).
Notation vm_step := (vm_step flist powf code size).
Notation vm_steps := (vm_steps flist powf code size).
Notation vm_call := (vm_call flist).

Lemma step_at v o : about_to code v o -> vm_step v = exec v o.
Proof. intros [HR HC]. unfold Vm.vm_step. rewrite HR, HC, opcode_of_opnum. reflexivity. Qed.
Lemma step_stopped v : v_state v <> S_READY -> vm_step v = Ok v.
Proof. intro H. unfold Vm.vm_step. destruct (v_state v); try reflexivity. congruence. Qed.
Lemma step_inv v v' : vm_step v = Ok v' ->
  (v_state v <> S_READY /\ v' = v) \/ (v_state v = S_READY /\ opcode_of (code (v_pc v)) = None /\ v' = err v E_INSTR) \/
  exists o, v_state v = S_READY /\ opcode_of (code (v_pc v)) = Some o /\ exec v o = Ok v'.
Proof.
  unfold Vm.vm_step. destruct (v_state v) eqn:E; cbn [is_ready]; intro H; try (left; split; [congruence|]; congruence).
  right. destruct (opcode_of _) as [o|] eqn:Eo; [right; eauto|left; split; auto; split; auto; congruence].
Qed.

(** ** Program counter *)
Lemma pc_set_stack v s : v_pc (set_stack v s) = v_pc v. Proof. reflexivity. Qed.

Ltac fin H := inversion H; subst; clear H; cbn in *; auto.
Ltac crush H := unfold stack_assert, type_assert, stack_at in H; brk H; fin H.

Lemma pc_dup v : v_pc (vm_dup v) = v_pc v.
Proof. unfold vm_dup. destruct (stack v); reflexivity. Qed.
Lemma pc_pop v : v_pc (vm_pop v) = v_pc v.
Proof. unfold vm_pop. destruct (stack v); reflexivity. Qed.
Lemma pc_pushs v a : v_pc (vm_pushs v a) = v_pc v.
Proof. unfold vm_pushs. destruct (sm_get _ _); reflexivity. Qed.
Lemma pc_pushl v a v' : vm_pushl v a = Ok v' -> v_pc v' = v_pc v.
Proof. unfold vm_pushl. intro H. brk H; fin H. Qed.
Lemma pc_gload v v' : vm_gload v = Ok v' -> v_pc v' = v_pc v.
Proof. unfold vm_gload. intro H. crush H. Qed.
Lemma pc_gstore v v' : vm_gstore v = Ok v' -> v_pc v' = v_pc v.
Proof. unfold vm_gstore. intro H. crush H. Qed.
Lemma pc_lload v a v' : vm_lload v a = Ok v' -> v_pc v' = v_pc v.
Proof. unfold vm_lload. intro H. crush H. Qed.
Lemma pc_lstore v a v' : vm_lstore v a = Ok v' -> v_pc v' = v_pc v.
Proof. unfold vm_lstore. intro H. crush H. Qed.
Lemma pc_lremove v a v' : vm_lremove v a = Ok v' -> v_pc v' = v_pc v.
Proof. unfold vm_lremove. intro H. crush H. Qed.

Definition inpc v : Prop := v_state v = S_READY -> pc_ok size (v_pc v) = true.
Lemma inc_pc_inv v k v' : inc_pc size v k = Ok v' ->
  (forall v1, pc_ok size (v_pc v1) = true -> k v1 = Ok v' -> inpc v') -> inpc v'.
Proof.
  unfold inc_pc. cbn [v_pc set_pc set_oldpc]. destruct (pc_ok _ _) eqn:E; intros H HK.
  - apply HK in H; auto.
  - inversion H. intro HR. discriminate HR.
Qed.
Lemma get_arg_inv v k v' : get_arg code size v k = Ok v' ->
  (forall v1 a, pc_ok size (v_pc v1) = true -> k v1 a = Ok v' -> inpc v') -> inpc v'.
Proof.
  unfold get_arg. destruct (pc_ok _ _) eqn:E; intros H HK.
  - apply HK in H; auto.
  - inversion H. intro HR. discriminate HR.
Qed.
Lemma op_inc_inv r v' : op_inc size r = Ok v' -> inpc v'.
Proof.
  unfold op_inc. destruct r; cbn [bind]; try discriminate. intro H. eapply inc_pc_inv; [exact H|].
  unfold done_. intros v1 H1 H2 _. congruence.
Qed.
Lemma assert_pc_in v v' : Ok (assert_pc size v) = Ok v' -> inpc v'.
Proof. intro H. inversion H. unfold assert_pc. destruct (pc_ok _ _) eqn:E; intro HR; [auto|discriminate HR]. Qed.
Lemma if_ready_inv r k v' : if_ready r k = Ok v' -> (forall v1, k v1 = Ok v' -> inpc v') -> inpc v'.
Proof.
  unfold if_ready. destruct r; cbn [bind]; try discriminate. destruct (is_ready _) eqn:E; intros H HK.
  - apply HK in H; auto.
  - inversion H; subst. intro HR. rewrite HR in E. discriminate.
Qed.
Lemma keep_pc v1 v' : pc_ok size (v_pc v1) = true -> v_pc v' = v_pc v1 -> inpc v'.
Proof. intros H E _. congruence. Qed.

Lemma exec_pc v o v' : v_state v = S_READY -> exec v o = Ok v' -> inpc v'.
Proof.
  intros HR H. destruct o; cbn [Vm.exec] in H;
    try (apply op_inc_inv in H; exact H);
    try (eapply inc_pc_inv; [exact H|]; clear H; intros v1 H1 H);
    try (eapply get_arg_inv; [exact H|]; clear H; intros v2 a H2 H; cbn beta in H);
    try (eapply if_ready_inv; [exact H|]; clear H; intros v3 H; cbn beta in H);
    try (eapply inc_pc_inv; [exact H|]; clear H; intros v1 H1 H);
    try (apply assert_pc_in in H; exact H).
  all: try (unfold done_ in H; inversion H; subst; intros _; assumption).
  - inversion H. intro HX. discriminate HX.
  - inversion H. eapply keep_pc; [exact H1|]. apply pc_dup.
  - eapply keep_pc; [exact H1|]. apply pc_gload; auto.
  - eapply keep_pc; [exact H1|]. apply pc_gstore; auto.
  - inversion H. eapply keep_pc; [exact H2|]. apply pc_pushs.
  - eapply keep_pc; [exact H2|]. eapply pc_pushl; eauto.
  - eapply keep_pc; [exact H2|]. eapply pc_lload; eauto.
  - eapply keep_pc; [exact H2|]. eapply pc_lstore; eauto.
  - eapply keep_pc; [exact H2|]. eapply pc_lremove; eauto.
  - unfold stack_assert in H.
    destruct (_ <? 0); [inversion H; intro HX; discriminate HX|]. destruct (stack_at v2 1); cbn [bind] in H; try discriminate.
    destruct (Bool.eqb _ _).
    + unfold assert_pc in H. destruct (pc_ok size (v_pc (set_pc v2 (sign32 a)))) eqn:E3.
      * destruct (is_ready _); inversion H; subst; [|intros _; exact E3]. intros _. rewrite pc_pop. exact E3.
      * cbn [is_ready err set_state v_state] in H. inversion H. intro HX. discriminate HX.
    + inversion H. intros _. rewrite pc_pop. exact H2.
  - unfold stack_assert in H.
    destruct (_ <? 0); [inversion H; intro HX; discriminate HX|]. destruct (stack_at v2 1); cbn [bind] in H; try discriminate.
    destruct (Bool.eqb _ _).
    + unfold assert_pc in H. destruct (pc_ok size (v_pc (set_pc v2 (sign32 a)))) eqn:E3.
      * destruct (is_ready _); inversion H; subst; [|intros _; exact E3]. intros _. rewrite pc_pop. exact E3.
      * cbn [is_ready err set_state v_state] in H. inversion H. intro HX. discriminate HX.
    + inversion H. intros _. rewrite pc_pop. exact H2.
Qed.
Lemma step_pc v v' : vm_step v = Ok v' -> inpc v'.
Proof.
  intro H. apply step_inv in H as [[H ->]|[(H & _ & ->)|(o & HR & _ & H)]].
  - intro; congruence.
  - intro HX; discriminate HX.
  - eapply exec_pc; eauto.
Qed.

(** ** Steps *)
Lemma steps_app n m : forall v, vm_steps (n + m) v = (v1 <- vm_steps n v ;; vm_steps m v1).
Proof.
  induction n; intro v; cbn [Nat.add Vm.vm_steps bind]; auto. destruct (vm_step v); cbn [bind]; auto.
Qed.
Lemma steps_snoc n v : vm_steps (S n) v = (v1 <- vm_steps n v ;; vm_step v1).
Proof.
  replace (S n) with (n + 1)%nat by lia. rewrite steps_app. destruct (vm_steps n v); cbn [bind Vm.vm_steps]; auto.
  destruct (vm_step a); reflexivity.
Qed.
Lemma steps_stopped n v : v_state v <> S_READY -> vm_steps n v = Ok v.
Proof. intro H. induction n; cbn [Vm.vm_steps]; auto. rewrite step_stopped by auto. auto. Qed.

(** ** Frames *)

(** The four ways a step that leaves the VM ready changes the stacks and the local symbols. *)
Inductive frames (o : opcode) v v' : Prop :=
| FLocal (s : list obj) (HS : v_stacks v' = s :: tl (v_stacks v))
    (HL : v_lsymts v' = v_lsymts v \/
          exists ls t l', v_lsymts v = ls :: t /\ v_lsymts v' = mkLs l' (ls_swarm ls) :: t /\
            ((o = I_LSTORE /\ exists x, l' = slot_set (ls_syms ls) (Z.to_nat (word code (v_pc v + 1))) x) \/
             (o = I_LREMOVE /\ l' = firstn (length (ls_syms ls) - Z.to_nat (word code (v_pc v + 1))) (ls_syms ls))))
| FCall (s : list obj) ls (HS : v_stacks v' = [] :: (OInt (v_pc v + 1) :: s) :: tl (v_stacks v))
    (HL : v_lsymts v' = ls :: v_lsymts v) (HO : o = I_CALLC \/ o = I_CALLS)
| FNative f v5 s ls (HI : In f flist) (HS : v_stacks v5 = [] :: (OInt (v_pc v + 1) :: s) :: tl (v_stacks v))
    (HL : v_lsymts v5 = ls :: v_lsymts v) (HG : v_gsyms v5 = v_gsyms v) (HF : f v5 = Ok v') (HO : o = I_CALLC \/ o = I_CALLS)
| FRet top ra s rest ls r (HS : v_stacks v = top :: (OInt ra :: s) :: rest) (HL : v_lsymts v = ls :: v_lsymts v')
    (HS' : v_stacks v' = (r :: s) :: rest) (HP : v_pc v' = ra)
    (HO : (o = I_RET0 /\ r = ONil) \/ (o = I_RET1 /\ hd_error top = Some r)).

(** Operations that only change the current stack. *)
Definition keeps v v' : Prop :=
  (exists s, v_stacks v' = s :: tl (v_stacks v)) /\ v_lsymts v' = v_lsymts v.
Lemma keeps_push v o : keeps v (push v o).
Proof. split; [eexists; reflexivity|reflexivity]. Qed.
Lemma keeps_set v s : keeps v (set_stack v s).
Proof. split; [eexists; reflexivity|reflexivity]. Qed.
Lemma keeps_push_set v s o : keeps v (push (set_stack v s) o).
Proof. split; [eexists; reflexivity|reflexivity]. Qed.
Lemma keeps_pop v : v_stacks v <> [] -> keeps v (vm_pop v).
Proof.
  intro H. unfold vm_pop. destruct (stack v) eqn:E; [|apply keeps_set]. split; [|reflexivity]. exists (stack v). unfold stack.
  cbn. destruct (v_stacks v); cbn; congruence.
Qed.
Definition nonempty v : Prop := v_stacks v <> [].
Lemma keeps_refl v : nonempty v -> keeps v v.
Proof. intro H. split; [|reflexivity]. unfold nonempty in H. destruct (v_stacks v) as [|s t]; [congruence|]. exists s. reflexivity. Qed.
Lemma keeps_err v e : nonempty v -> keeps v (err v e).
Proof. intro H. split; [|reflexivity]. unfold nonempty in H. cbn. destruct (v_stacks v) as [|s t]; [congruence|]. exists s. reflexivity. Qed.

Ltac kp H := unfold stack_assert, type_assert, stack_at in H; brk H; inversion H; subst; clear H;
  first [apply keeps_push_set | apply keeps_push | apply keeps_set | apply keeps_refl; assumption | apply keeps_err; assumption
        | split; [eexists; reflexivity|reflexivity]
        | match goal with |- keeps _ (err ?w _) => split; [eexists; reflexivity|reflexivity] end].
Lemma keeps_arith v i f v' : nonempty v -> vm_arith v i f = Ok v' -> keeps v v'.
Proof. intros HN H. unfold vm_arith in H. kp H. Qed.
Lemma keeps_mod v v' : nonempty v -> vm_mod v = Ok v' -> keeps v v'.
Proof. intros HN H. unfold vm_mod in H. kp H. Qed.
Lemma keeps_pow v v' : nonempty v -> vm_pow powf v = Ok v' -> keeps v v'.
Proof. intros HN H. unfold vm_pow in H. kp H. Qed.
Lemma keeps_unm v v' : nonempty v -> vm_unm v = Ok v' -> keeps v v'.
Proof. intros HN H. unfold vm_unm in H. kp H. Qed.
Lemma keeps_logic v f v' : nonempty v -> vm_logic v f = Ok v' -> keeps v v'.
Proof. intros HN H. unfold vm_logic in H. kp H. Qed.
Lemma keeps_lnot v v' : nonempty v -> vm_lnot v = Ok v' -> keeps v v'.
Proof. intros HN H. unfold vm_lnot in H. kp H. Qed.
Lemma keeps_bitwise v f v' : nonempty v -> vm_bitwise v f = Ok v' -> keeps v v'.
Proof. intros HN H. unfold vm_bitwise in H. kp H. Qed.
Lemma keeps_bnot v v' : nonempty v -> vm_bnot v = Ok v' -> keeps v v'.
Proof. intros HN H. unfold vm_bnot in H. kp H. Qed.
Lemma keeps_cmp v f v' : nonempty v -> vm_cmp powf v f = Ok v' -> keeps v v'.
Proof. intros HN H. unfold vm_cmp in H. kp H. Qed.
Lemma keeps_gload v v' : nonempty v -> vm_gload v = Ok v' -> keeps v v'.
Proof. intros HN H. unfold vm_gload in H. kp H. Qed.
Lemma keeps_gstore v v' : nonempty v -> vm_gstore v = Ok v' -> keeps v v'.
Proof. intros HN H. unfold vm_gstore in H. kp H. Qed.
Lemma keeps_tput v v' : nonempty v -> vm_tput v = Ok v' -> keeps v v'.
Proof. intros HN H. unfold vm_tput in H. kp H. Qed.
Lemma keeps_tget v v' : nonempty v -> vm_tget v = Ok v' -> keeps v v'.
Proof. intros HN H. unfold vm_tget in H. kp H. Qed.
Lemma keeps_pushl v a v' : nonempty v -> vm_pushl v a = Ok v' -> keeps v v'.
Proof. intros HN H. unfold vm_pushl in H. kp H. Qed.
Lemma keeps_lload v a v' : nonempty v -> vm_lload v a = Ok v' -> keeps v v'.
Proof. intros HN H. unfold vm_lload in H. kp H. Qed.
Lemma keeps_pushs v a : nonempty v -> keeps v (vm_pushs v a).
Proof. intro HN. unfold vm_pushs. destruct (sm_get _ _); [apply keeps_push|apply keeps_err; auto]. Qed.
Lemma keeps_dup v : nonempty v -> keeps v (vm_dup v).
Proof. intro HN. unfold vm_dup. destruct (stack v); [apply keeps_err; auto|apply keeps_push]. Qed.
Lemma keeps_pusht v : keeps v (vm_pusht v).
Proof. split; [eexists; reflexivity|reflexivity]. Qed.

Definition bump v : vm := set_pc (set_oldpc v (v_pc v)) (v_pc v + 1).
Lemma inc_ready v k v' : inc_pc size v k = Ok v' -> v_state v' = S_READY -> k (bump v) = Ok v'.
Proof. unfold inc_pc, bump. destruct (pc_ok _ _); intros H HR; auto. inversion H; subst; discriminate. Qed.
Lemma get_arg_ready v k v' : get_arg code size v k = Ok v' -> v_state v' = S_READY ->
  k (set_pc v (v_pc v + 4)) (word code (v_pc v)) = Ok v'.
Proof. unfold get_arg. destruct (pc_ok _ _); intros H HR; auto. inversion H; subst; discriminate. Qed.
Lemma op_inc_ready r v' : op_inc size r = Ok v' -> v_state v' = S_READY -> exists v1, r = Ok v1 /\ v' = bump v1.
Proof.
  unfold op_inc. destruct r as [v1| | |]; cbn [bind]; try discriminate. intros H HR. apply inc_ready in H; auto.
  exists v1. split; auto. inversion H; auto.
Qed.
Lemma if_ready_ready r k v' : if_ready r k = Ok v' -> v_state v' = S_READY -> exists v1, r = Ok v1 /\ v_state v1 = S_READY /\ k v1 = Ok v'.
Proof.
  unfold if_ready. destruct r as [v1| | |]; cbn [bind]; try discriminate. destruct (v_state v1) eqn:E; cbn [is_ready]; intros H HR;
    try (inversion H; subst; congruence). eauto.
Qed.
Lemma assert_ready v : v_state (assert_pc size v) = S_READY -> assert_pc size v = v.
Proof. unfold assert_pc. destruct (pc_ok _ _); auto. discriminate. Qed.

Lemma keeps_frames v v1 v2 v' o : v_stacks v1 = v_stacks v -> v_lsymts v1 = v_lsymts v -> keeps v1 v2 ->
  v_stacks v' = v_stacks v2 -> v_lsymts v' = v_lsymts v2 -> frames o v v'.
Proof.
  intros H1 H2 [(s & H3) H4] H5 H6. eapply FLocal with (s := s); [congruence|left; congruence].
Qed.

Lemma pop_lsyms_inv v v1 : pop_lsyms v = Ok v1 -> exists ls, v_lsymts v = ls :: v_lsymts v1 /\ v_stacks v1 = v_stacks v /\
  v_state v1 = v_state v /\ v_pc v1 = v_pc v.
Proof.
  unfold pop_lsyms. destruct (v_lsymts v) as [|ls t] eqn:E; intro H; inversion H; subst. exists ls. destruct (ls_swarm ls); cbn; auto.
Qed.
Lemma pop_stacks_inv v v1 : pop_stacks v = Ok v1 -> exists top s rest, v_stacks v = top :: s :: rest /\ v1 = set_stacks v (s :: rest).
Proof.
  unfold pop_stacks. destruct (v_stacks v) as [|top [|s rest]] eqn:E; intro H; inversion H; subst. eauto 6.
Qed.
Lemma ret_to_inv v r v' : ret_to v r = Ok v' -> v_state v' = S_READY -> exists a s, stack v = OInt a :: s /\
  v_stacks v' = (r :: s) :: tl (v_stacks v) /\ v_lsymts v' = v_lsymts v /\ v_pc v' = a.
Proof.
  unfold ret_to, stack_assert, type_assert, stack_at. intros H HR. brk H; inversion H; subst; try discriminate. cbn. eauto 8.
Qed.
Lemma ret0_inv v v' : vm_ret0 v = Ok v' -> v_state v' = S_READY -> exists top ra s rest ls,
  v_stacks v = top :: (OInt ra :: s) :: rest /\ v_lsymts v = ls :: v_lsymts v' /\
  v_stacks v' = (ONil :: s) :: rest /\ v_pc v' = ra.
Proof.
  unfold vm_ret0. intros H HR. destruct (pop_lsyms v) as [v1| | |] eqn:E1; cbn [bind] in H; try discriminate.
  destruct (pop_stacks v1) as [v2| | |] eqn:E2; cbn [bind] in H; try discriminate.
  apply pop_lsyms_inv in E1 as (ls & HL & HS & _ & _). apply pop_stacks_inv in E2 as (top & s & rest & HS2 & ->).
  apply ret_to_inv in H as (a & s' & Hs & HS' & HL' & HP); auto. cbn in *. subst s.
  exists top, a, s', rest, ls. repeat split; auto; congruence.
Qed.
Lemma ret1_inv v v' : vm_ret1 v = Ok v' -> v_state v' = S_READY -> exists r t ra s rest ls,
  v_stacks v = (r :: t) :: (OInt ra :: s) :: rest /\ v_lsymts v = ls :: v_lsymts v' /\
  v_stacks v' = (r :: s) :: rest /\ v_pc v' = ra.
Proof.
  unfold vm_ret1, stack_assert. intros H HR. destruct (pop_lsyms v) as [v1| | |] eqn:E1; cbn [bind] in H; try discriminate.
  destruct (_ <? 0); [inversion H; subst; discriminate|]. destruct (stack v1) as [|r t] eqn:ES; [discriminate|].
  destruct (pop_stacks v1) as [v2| | |] eqn:E2; cbn [bind] in H; try discriminate.
  apply pop_lsyms_inv in E1 as (ls & HL & HS & _ & _). apply pop_stacks_inv in E2 as (top & s & rest & HS2 & ->).
  apply ret_to_inv in H as (a & s' & Hs & HS' & HL' & HP); auto. cbn in *. subst s. unfold stack in ES. rewrite HS2 in ES. cbn in ES. subst top.
  exists r, t, a, s', rest, ls. repeat split; auto; congruence.
Qed.

Lemma call_frames v w v' : vm_call v w = Ok v' -> v_state v' = S_READY ->
  exists argn s0 native ref act, stack v = OInt argn :: s0 /\ argn + 1 < 2 ^ 31 /\ 0 <= argn /\ argn + 1 <= zlen s0 /\
    nth_error s0 (Z.to_nat argn) = Some (OClos native ref act) /\
    let ls := mkLs (map Some act ++ rev (map Some (firstn (Z.to_nat argn) s0))) w in
    let v5 := set_stacks (set_lsymts v (ls :: v_lsymts v)) ([] :: (OInt (v_pc v) :: skipn (S (S (Z.to_nat argn))) s0) :: tl (v_stacks v)) in
    if native then v' = set_pc (set_oldpc v5 (v_pc v)) ref
    else exists f, nth_error flist (Z.to_nat ref) = Some f /\ f v5 = Ok v'.
Proof.
  unfold Vm.vm_call, stack_assert, type_assert. intros H HR.
  destruct (zlen (stack v) - 1 <? 0) eqn:E0; [inversion H; subst; discriminate|].
  destruct (stack_at v 1) as [o| | |] eqn:E1; cbn [bind] in H; try discriminate.
  destruct (otype o =? T_INT) eqn:E2; [|inversion H; subst; discriminate].
  destruct (stack v) as [|[| argn | | | | |] s0] eqn:ES; try discriminate.
  destruct (argn + 1 >=? 2 ^ 31) eqn:EO; [discriminate|].
  destruct (zlen (stack (set_stack v s0)) - (argn + 1) <? 0) eqn:E3; [inversion H; subst; discriminate|].
  destruct (stack_at (set_stack v s0) (argn + 1)) as [c| | |] eqn:E4; cbn [bind] in H; try discriminate.
  destruct (otype c =? T_CLOSURE) eqn:E5; [|inversion H; subst; discriminate].
  destruct c as [| | | | |native ref act|]; try discriminate.
  unfold stack_at in E4. cbn [stack set_stack set_stacks v_stacks hd] in E4, E3.
  destruct (1 <=? argn + 1) eqn:E6; [|discriminate]. replace (argn + 1 - 1) with argn in E4 by lia.
  destruct (nth_error s0 (Z.to_nat argn)) as [c'|] eqn:E7; [|discriminate]. inversion E4; subst c'. clear E4.
  destruct (negb native && (zlen flist <=? ref)) eqn:E8; [inversion H; subst; discriminate|].
  exists argn, s0, native, ref, act. split; [auto|]. split; [lia|]. split; [lia|].
  split. { cbn in E3. lia. } split; [auto|].
  destruct native; cbv zeta.
  - inversion H. reflexivity.
  - destruct (ref <? 0); [discriminate|]. destruct (nth_error flist (Z.to_nat ref)) as [f|] eqn:EF; [|discriminate].
    exists f. split; auto.
Qed.

Lemma jump_frames v w t o' v' : nonempty v -> v_state v' = S_READY ->
  stack_assert (set_pc (bump v) w) 1
    (o <- stack_at (set_pc (bump v) w) 1 ;;
     if Bool.eqb (truthy o) t then
       let v1 := assert_pc size (set_pc (set_pc (bump v) w) (sign32 (word code (v_pc (bump v))))) in
       if is_ready (v_state v1) then Ok (vm_pop v1) else Ok v1
     else Ok (vm_pop (set_pc (bump v) w))) = Ok v' -> frames o' v v'.
Proof.
  intros HN HR H. unfold stack_assert in H. destruct (_ <? 0); [inversion H; subst; discriminate|].
  destruct (stack_at _ _) as [o| | |]; cbn [bind] in H; try discriminate. destruct (Bool.eqb _ _); cbv zeta in H.
  - unfold assert_pc in H. destruct (pc_ok size _).
    + destruct (is_ready _); inversion H; subst; clear H.
      * eapply (keeps_frames v (set_pc (set_pc (bump v) w) _)); [| |apply keeps_pop; exact HN|reflexivity|reflexivity]; reflexivity.
      * eapply (keeps_frames v v v); auto using keeps_refl.
    + cbn [is_ready err set_state v_state] in H. inversion H; subst; discriminate.
  - inversion H; subst; clear H.
    eapply (keeps_frames v (set_pc (bump v) w)); [| |apply keeps_pop; exact HN|reflexivity|reflexivity]; reflexivity.
Qed.
Lemma exec_frames v o v' : nonempty v -> exec v o = Ok v' -> v_state v' = S_READY -> frames o v v'.
Proof.
  intros HN H HR.
  assert (HNb : nonempty (bump v)) by exact HN.
  assert (HNa : forall p, nonempty (set_pc (bump v) p)) by (intro; exact HN).
  destruct o; cbn [Vm.exec] in H;
    try (apply op_inc_ready in H as (v1 & H & ->); [|exact HR]);
    try (apply inc_ready in H; [|exact HR]);
    try (apply get_arg_ready in H; [|exact HR]);
    try (apply if_ready_ready in H as (v1 & H1 & HR1 & H); [|exact HR]);
    try (apply inc_ready in H; [|exact HR]).
  all: try (eapply (keeps_frames v v v1); [reflexivity|reflexivity| |reflexivity|reflexivity];
       eauto using keeps_arith, keeps_mod, keeps_pow, keeps_unm, keeps_logic, keeps_lnot, keeps_bitwise, keeps_bnot, keeps_cmp; fail).
  all: try (eapply (keeps_frames v (bump v) v'); [reflexivity|reflexivity| |reflexivity|reflexivity];
       eauto using keeps_gload, keeps_gstore; fail).
  all: try (eapply (keeps_frames v _ v'); [| | |reflexivity|reflexivity];
       [..|inversion H; apply keeps_push]; reflexivity).
  - inversion H; subst. apply (keeps_frames v v v (bump v)); auto using keeps_refl.
  - inversion H; subst. discriminate.
  - inversion H; subst. eapply (keeps_frames v (bump v)); [reflexivity|reflexivity| |reflexivity|reflexivity]. apply keeps_dup; auto.
  - inversion H1; subst. inversion H; subst. eapply (keeps_frames v v (vm_pop v)); auto. apply keeps_pop; auto.
  - inversion H; subst. rewrite assert_ready by auto. apply ret0_inv in H1 as (top & ra & s & rest & ls & A & B & C & D); auto. eapply FRet; eauto.
  - inversion H; subst. rewrite assert_ready by auto. apply ret1_inv in H1 as (r & t & ra & s & rest & ls & A & B & C & D); auto. eapply FRet; eauto.
  - inversion H; subst. eapply (keeps_frames v v (vm_pusht v)); auto. apply keeps_pusht.
  - inversion H; subst. eapply (keeps_frames v v v1); auto. eapply keeps_tput; eauto.
  - inversion H; subst. eapply (keeps_frames v v v1); auto. eapply keeps_tget; eauto.
  - inversion H; subst. rewrite assert_ready by auto. apply call_frames in H1 as (n & s0 & na & ref & act & A & _ & _ & _ & B & C); auto.
    cbv zeta in C. destruct na; [subst v1; eapply FCall; [reflexivity|reflexivity|auto]|]. destruct C as (f & C & D). eapply FNative; [eapply nth_error_In; exact C| | | |exact D|auto]; reflexivity.
  - inversion H; subst. rewrite assert_ready by auto. apply call_frames in H1 as (n & s0 & na & ref & act & A & _ & _ & _ & B & C); auto.
    cbv zeta in C. destruct na; [subst v1; eapply FCall; [reflexivity|reflexivity|auto]|]. destruct C as (f & C & D). eapply FNative; [eapply nth_error_In; exact C| | | |exact D|auto]; reflexivity.
  - inversion H; subst. eapply (keeps_frames v _ _); [| |apply keeps_pushs; apply HNa|reflexivity|reflexivity]; reflexivity.
  - eapply (keeps_frames v _ v'); [| |eapply keeps_pushl; [apply HNa|exact H]|reflexivity|reflexivity]; reflexivity.
  - eapply (keeps_frames v _ v'); [| |eapply keeps_lload; [apply HNa|exact H]|reflexivity|reflexivity]; reflexivity.
  - unfold vm_lstore, stack_assert in H. brk H; inversion H; subst; [discriminate|].
    eapply FLocal; [reflexivity|]. right. cbn in *. do 3 eexists. split; [eassumption|]. split; [reflexivity|]. left. eauto.
  - unfold vm_lremove in H. brk H; inversion H; subst; [discriminate|]. cbn in *.
    eapply FLocal with (s := stack v); [|right; do 3 eexists; split; [exact Eb|]; split; [reflexivity|]; right; split; reflexivity].
    unfold nonempty in HN. unfold stack. destruct (v_stacks v) eqn:ES; [congruence|]. cbn. exact ES.
  - inversion H; subst. rewrite assert_ready by auto. eapply (keeps_frames v v v); auto using keeps_refl.
  - eapply jump_frames; eauto.
  - eapply jump_frames; eauto.
Qed.
End P.
