(** Steps of the VM over the code of the reference generator: the relation between the states of the
    VM and those of the language, and one lemma for each instruction. *)
From Verif Require Import Base ListLemmas Float Dict PDict DictProofs PDictKeys Strman Obj Instr Vm VmSpec VmProofs PropsVmArith PropsVmData Text Asm AsmSpec AsmProofs VmCode Source Gen GenExt PgBase PgSym PgFun PgScript.
Local Open Scope Z_scope. Local Open Scope list_scope.

Section G.
Context {X : Type}.
Variable flist : list (vm X -> res (vm X)).
Variable powf : libm.
Variable strtof : list Z -> option Z.
Variable env : str -> Z.
Variable code : Z -> Z.
Variable size : Z.
Variable sm_ok : strman -> Prop.  (* kept by the strings of the VM *)
Variable strs : list str.       (* those of the program *)
Notation sst := (sst X).
Notation vm_step := (vm_step flist powf code size).
Notation vm_steps := (vm_steps flist powf code size).
Implicit Types v : vm X.

(** [p] is at address [a], followed by at least one byte; its labels stand for their addresses. *)
Definition at_ (a : Z) (p : list aline) : Prop :=
  code_at strtof env code a p /\ (forall p1 nm d p2, p = p1 ++ L_label nm d :: p2 -> env nm = a + address p1) /\ 0 <= a /\ a + address p < size.
Lemma at_app a p q : at_ a (p ++ q) -> at_ a p /\ at_ (a + address p) q.
Proof.
  intros (H1 & H2 & H3 & H4). apply code_at_app in H1 as [H1 H1']. rewrite address_cat in H4. pose proof (address_pos p). pose proof (address_pos q).
  split; (split; [auto|]); (split; [|lia]).
  - intros p1 nm d p2 ->. apply (H2 p1 nm d (p2 ++ q)). rewrite <- app_assoc. reflexivity.
  - intros p1 nm d p2 ->. rewrite (H2 (p ++ p1) nm d p2) by (rewrite <- app_assoc; reflexivity). rewrite address_cat. lia.
Qed.
Lemma at_cons a l p : at_ a (l :: p) -> at_ a [l] /\ at_ (a + line_size l) p.
Proof. intro H. change (l :: p) with ([l] ++ p) in H. apply at_app in H. cbn [address] in H. rewrite Z.add_0_r in H. exact H. Qed.
Lemma at_lab a nm d : at_ a [L_label nm d] -> env nm = a.
Proof. intros (_ & H & _). rewrite (H [] nm d []) by reflexivity. cbn [address]. lia. Qed.
Lemma at_range a p : at_ a p -> 0 <= a < size.
Proof. intros (_ & _ & H1 & H2). pose proof (address_pos p). lia. Qed.

(** The state of the VM, apart from the stacks and the frames, is that of the language. *)
Record like (v : vm X) (st : sst) : Prop := mkLike {
  lk_heap : v_heap v = s_heap st;
  lk_str : v_str v = s_str st;
  lk_ok : sm_ok (v_str v);
  lk_set : stored_globals (v_gsyms v);
  lk_glob : forall x p, index x strs = Some p -> s_glob st x = global v p;
  lk_ext : v_ext v = s_ext st;
  lk_err : v_error v = E_NONE
}.
Record rel (v : vm X) (a : Z) (S : list (list obj)) (F : list lsyms) (st : sst) : Prop := mkRel {
  r_ready : v_state v = S_READY;
  r_pc : v_pc v = a;
  r_stacks : v_stacks v = S;
  r_frames : v_lsymts v = F;
  r_set : forall f, In f F -> ~ In None (ls_syms f);
  r_like : like v st
}.

(** A condition on the states that are met, true when the frames have no empty slots and the strings that
    are pushed are those of the program. *)
Variable fine : vm X -> Prop.
Definition path (k : nat) (v v' : vm X) : Prop := vm_steps k v = Ok v' /\ forall j w, (j < k)%nat -> vm_steps j v = Ok w -> fine w.
Definition fstep (v v1 : vm X) : Prop := fine v /\ vm_step v = Ok v1.
Lemma path_none v : path 0 v v. Proof. split; auto. intros j w Hj. lia. Qed.
Lemma path_app k m v v1 v2 : path k v v1 -> path m v1 v2 -> path (k + m) v v2.
Proof.
  intros [H1 H2] [H3 H4]. split; [rewrite steps_app, H1; exact H3|]. intros j w Hj Hw. destruct (Nat.ltb j k) eqn:E.
  - apply Nat.ltb_lt in E. eapply H2; eauto.
  - apply Nat.ltb_ge in E. replace j with (k + (j - k))%nat in Hw by lia. rewrite steps_app, H1 in Hw. cbn [bind] in Hw. apply (H4 (j - k)%nat); auto. lia.
Qed.
Lemma path_one v v1 : fstep v v1 -> path 1 v v1.
Proof. intros [H1 H2]. split; [cbn [Vm.vm_steps]; rewrite H2; reflexivity|]. intros j w Hj Hw. replace j with 0%nat in Hw by lia. cbn in Hw. congruence. Qed.

(** ** Executions that do what the language says *)
(** From [v]: a state with [Q]; the error; anything; or at least [n] steps. *)
Definition sim {A} (n : nat) (v : vm X) (o : out A) (Q : A -> vm X -> Prop) : Prop :=
  match o with
  | Done r => exists k v', path k v v' /\ Q r v'
  | Fail e => exists k v', path k v v' /\ v_state v' = S_ERROR /\ v_error v' = e
  | Unspec => True
  | More => exists k v', (n <= k)%nat /\ path k v v' /\ v_state v' = S_READY
  end.
Lemma sim_steps {A} k n v v1 (o : out A) Q : path k v v1 -> sim n v1 o Q -> sim (k + n) v o Q.
Proof.
  intros HS H. destruct o; cbn [sim] in *; auto.
  - destruct H as (m & v' & H & HQ). exists (k + m)%nat, v'. split; auto. eapply path_app; eauto.
  - destruct H as (m & v' & H & HQ). exists (k + m)%nat, v'. split; auto. eapply path_app; eauto.
  - destruct H as (m & v' & Hm & H & HQ). exists (k + m)%nat, v'. split; [lia|]. split; auto. eapply path_app; eauto.
Qed.
Lemma sim_le {A} n m v (o : out A) Q : (m <= n)%nat -> sim n v o Q -> sim m v o Q.
Proof. intros Hm H. destruct o; cbn [sim] in *; auto. destruct H as (k & v' & Hk & H). exists k, v'. split; [lia|auto]. Qed.
Lemma sim_step {A} n v v1 (o : out A) Q : fstep v v1 -> sim n v1 o Q -> sim n v o Q.
Proof. intros HS H. apply (sim_le (1 + n)); [lia|]. eapply sim_steps; eauto. apply path_one, HS. Qed.
Lemma sim_stepS {A} n v v1 (o : out A) Q : fstep v v1 -> sim n v1 o Q -> sim (S n) v o Q.
Proof. intros HS H. apply (sim_steps 1 n v v1); auto. apply path_one, HS. Qed.
Lemma sim_bind {A B} n v (o : out A) (f : A -> out B) Q R : sim n v o Q -> (forall r v', Q r v' -> sim n v' (f r) R) -> sim n v (obind o f) R.
Proof.
  intros H HF. destruct o; cbn [sim obind] in *; auto. destruct H as (k & v' & H & HQ). apply (sim_le (k + n)); [lia|]. eapply sim_steps; eauto.
Qed.
Lemma sim_done {A} n v (r : A) (Q : A -> vm X -> Prop) : Q r v -> sim n v (Done r) Q.
Proof. intro H. exists O, v. split; auto. apply path_none. Qed.
Lemma sim_weak {A} n v (o : out A) (Q R : A -> vm X -> Prop) : sim n v o Q -> (forall r v', Q r v' -> R r v') -> sim n v o R.
Proof. intros H HW. destruct o; cbn [sim] in *; auto. destruct H as (k & v' & H & HQ). eauto. Qed.
Lemma sim_fail {A} n v v1 e (Q : A -> vm X -> Prop) : fstep v v1 -> v_state v1 = S_ERROR -> v_error v1 = e -> sim n v (Fail e) Q.
Proof. intros HS H1 H2. exists 1%nat, v1. split; auto. apply path_one, HS. Qed.

(** ** Instructions *)
Lemma like_of v v1 st : v_heap v1 = v_heap v -> v_str v1 = v_str v -> v_gsyms v1 = v_gsyms v -> v_ext v1 = v_ext v -> v_error v1 = v_error v -> like v st -> like v1 st.
Proof. intros E1 E2 E3 E4 E5 [H1 H2 H2' H3 H4 H5 H6]. split; try congruence. intros x p Hx. rewrite (H4 x p Hx). unfold global. rewrite E3. reflexivity. Qed.
Lemma rel_next v a s S F st len s' : rel v a (s :: S) F st -> rel (next v len s') (a + len) (s' :: S) F st.
Proof. intros [H1 H2 H3 H4 H4' H5]. split; cbn; auto; [congruence|rewrite H3; reflexivity|apply (like_of v); auto]. Qed.
Lemma rel_goto v a s S F st p s' : rel v a (s :: S) F st -> rel (goto v p s') p (s' :: S) F st.
Proof. intros [H1 H2 H3 H4 H4' H5]. split; cbn; auto; [rewrite H3; reflexivity|apply (like_of v); auto]. Qed.
Lemma rel_run v a S F st o x d : at_ a [L_instr o x d] -> rel v a S F st ->
  can_run code size v o /\ (has_arg o = true -> instr_arg code v = wrap32 (operand_value strtof env x)).
Proof.
  intros (H1 & _ & H3 & H4) [R1 R2 _ _ _ _]. cbn [address line_size] in H4. subst a. apply (at_instr strtof env code v o x d); auto. unfold instr_len. lia.
Qed.
Lemma rel_stack v a s S F st : rel v a (s :: S) F st -> stack v = s.
Proof. intros [_ _ H _ _ _]. unfold stack. rewrite H. reflexivity. Qed.
Lemma wrap_small a : 0 <= a < 2 ^ 32 -> wrap32 a = a.
Proof. intro. unfold wrap32. apply Z.mod_small. auto. Qed.
Lemma sign_small a : 0 <= a < 2 ^ 31 -> sign32 (wrap32 a) = a.
Proof. intro. unfold sign32, wrap32. rewrite Zmod_mod, (Z.mod_small a (2 ^ 32)) by lia. replace (a <? 2 ^ 31) with true by lia. reflexivity. Qed.
Lemma sign_wrap a : sign32 (wrap32 a) = sign32 a.
Proof. unfold sign32, wrap32. rewrite Zmod_mod. reflexivity. Qed.

Hypothesis Hfine : forall v, sm_ok (v_str v) -> (forall f, In f (v_lsymts v) -> ~ In None (ls_syms f)) ->
  (about_to code v I_PUSHS -> exists x, index x strs = Some (instr_arg code v)) -> fine v.
Lemma about_fine v a S F st o : rel v a S F st -> about_to code v o -> o <> I_PUSHS -> fine v.
Proof.
  intros HR HA HO. apply Hfine; [apply (lk_ok _ _ (r_like _ _ _ _ _ HR))|rewrite (r_frames _ _ _ _ _ HR); exact (r_set _ _ _ _ _ HR)|].
  intros [_ HB]. exfalso. apply HO. destruct HA as [_ HA]. assert (HE : opnum o = opnum I_PUSHS) by congruence. destruct o; try reflexivity; discriminate HE.
Qed.
Lemma run_fine v a S F st o : rel v a S F st -> can_run code size v o -> o <> I_PUSHS -> fine v.
Proof. intros HR HC. eapply about_fine; eauto. apply HC. Qed.

(** Instructions that only change the operand stack. *)
Definition goes (v : vm X) (a : Z) (S : list (list obj)) (F : list lsyms) (st : sst) : Prop := fine v /\ exists v', vm_step v = Ok v' /\ rel v' a S F st.
Lemma goes_next v a s S F st len s' : rel v a (s :: S) F st -> vm_step v = Ok (next v len s') -> fine v -> goes v (a + len) (s' :: S) F st.
Proof. intros HR HS HF. split; auto. exists (next v len s'). split; auto. eapply rel_next; eauto. Qed.
Ltac fin_ HC HR := eapply run_fine; [exact HR|exact HC|discriminate].
Lemma go_pushnil v a s S F st : at_ a [ins I_PUSHNIL] -> rel v a (s :: S) F st -> goes v (a + 1) ((ONil :: s) :: S) F st.
Proof.
  intros HA HR. destruct (rel_run _ _ _ _ _ _ _ _ HA HR) as [HC _]. eapply goes_next; [exact HR| |fin_ HC HR].
  rewrite (step_at flist powf code size v _ (proj1 HC)). cbn [Vm.exec]. rewrite (run_inc code size v _ _ HC), <- (rel_stack _ _ _ _ _ _ HR). reflexivity.
Qed.
Lemma go_dup v a o s S F st : at_ a [ins I_DUP] -> rel v a ((o :: s) :: S) F st -> goes v (a + 1) ((o :: o :: s) :: S) F st.
Proof.
  intros HA HR. destruct (rel_run _ _ _ _ _ _ _ _ HA HR) as [HC _]. eapply goes_next; [exact HR| |fin_ HC HR].
  rewrite (step_at flist powf code size v _ (proj1 HC)). cbn [Vm.exec]. rewrite (run_inc code size v _ _ HC). unfold vm_dup, push. change (stack (bump v)) with (stack v).
  rewrite (rel_stack _ _ _ _ _ _ HR). reflexivity.
Qed.
Lemma go_pop v a o s S F st : at_ a [ins I_POP] -> rel v a ((o :: s) :: S) F st -> goes v (a + 1) (s :: S) F st.
Proof.
  intros HA HR. destruct (rel_run _ _ _ _ _ _ _ _ HA HR) as [HC _]. eapply goes_next; [exact HR| |fin_ HC HR].
  rewrite (step_at flist powf code size v _ (proj1 HC)). cbn [Vm.exec]. unfold if_ready, vm_pop, dpop. rewrite (rel_stack _ _ _ _ _ _ HR). cbn [bind tl v_state set_stack set_stacks].
  rewrite (r_ready _ _ _ _ _ HR). cbn [is_ready]. destruct HC as ((_ & _) & H1 & H2). change (instr_len I_POP) with 1 in H2.
  unfold inc_pc. cbn [v_pc set_pc set_oldpc set_stack set_stacks]. replace (pc_ok size (v_pc v + 1)) with true by (unfold pc_ok; lia). reflexivity.
Qed.
Lemma go_num v a s S F st t : at_ a [num_line t] -> rel v a (s :: S) F st -> goes v (a + 5) ((num_val strtof t :: s) :: S) F st.
Proof.
  intros HA HR. unfold num_line, num_val in *. destruct (dotted t).
  - destruct (rel_run _ _ _ _ _ _ _ _ HA HR) as [HC HI]. specialize (HI eq_refl). eapply goes_next; [exact HR| |fin_ HC HR].
    rewrite (arg_exec flist powf code size v I_PUSHF (fun v a => Ok (push v (OFloat (f_of_bits a))))); auto. rewrite HI. cbn [operand_value].
    rewrite <- (rel_stack _ _ _ _ _ _ HR). reflexivity.
  - destruct (rel_run _ _ _ _ _ _ _ _ HA HR) as [HC HI]. specialize (HI eq_refl). eapply goes_next; [exact HR| |fin_ HC HR].
    rewrite (arg_exec flist powf code size v I_PUSHI (fun v a => Ok (push v (OInt (sign32 a))))); auto. rewrite HI. cbn [operand_value]. rewrite sign_wrap.
    rewrite <- (rel_stack _ _ _ _ _ _ HR). reflexivity.
Qed.
Lemma go_pushi v a s S F st n : at_ a [insn I_PUSHI n] -> 0 <= n < 2 ^ 31 -> rel v a (s :: S) F st -> goes v (a + 5) ((OInt n :: s) :: S) F st.
Proof.
  intros HA Hn HR. destruct (rel_run _ _ _ _ _ _ _ _ HA HR) as [HC HI]. specialize (HI eq_refl). eapply goes_next; [exact HR| |fin_ HC HR].
  rewrite (arg_exec flist powf code size v I_PUSHI (fun v a => Ok (push v (OInt (sign32 a))))); auto. rewrite HI. cbn [operand_value]. rewrite sign_small by auto.
  rewrite <- (rel_stack _ _ _ _ _ _ HR). reflexivity.
Qed.
Hypothesis Hstrs : forall p s, index s strs = Some p -> 0 <= p < 65536 /\ forall sm, sm_ok sm -> sm_get sm p = Some s.
Lemma go_pushs v a s S F st x p : at_ a [insn I_PUSHS p] -> index x strs = Some p -> rel v a (s :: S) F st -> goes v (a + 5) ((OStr p x :: s) :: S) F st.
Proof.
  intros HA Hx HR. destruct (rel_run _ _ _ _ _ _ _ _ HA HR) as [HC HI]. specialize (HI eq_refl). destruct (Hstrs p x Hx). eapply goes_next; [exact HR| |].
  2: { apply Hfine; [apply (lk_ok _ _ (r_like _ _ _ _ _ HR))|rewrite (r_frames _ _ _ _ _ HR); exact (r_set _ _ _ _ _ HR)|]. intros _. exists x. rewrite Hx, HI. cbn [operand_value]. rewrite wrap_small by lia. reflexivity. }
  rewrite <- (rel_stack _ _ _ _ _ _ HR). eapply pushs_step; eauto. apply H0. apply (lk_ok _ _ (r_like _ _ _ _ _ HR)).
Qed.
Lemma go_gload v a s S F st x p : at_ a [ins I_GLOAD] -> index x strs = Some p -> rel v a ((OStr p x :: s) :: S) F st -> goes v (a + 1) ((s_glob st x :: s) :: S) F st.
Proof.
  intros HA Hx HR. destruct (rel_run _ _ _ _ _ _ _ _ HA HR) as [HC _]. eapply goes_next; [exact HR| |fin_ HC HR].
  rewrite (lk_glob _ _ (r_like _ _ _ _ _ HR) x p Hx). eapply gload_step; eauto. eapply rel_stack; eauto.
Qed.
Lemma same_true x y : same x y = true -> x = y. Proof. unfold same. destruct (list_eq_dec Z.eq_dec x y); congruence. Qed.
Lemma go_gstore v a s S F st x p o : at_ a [ins I_GSTORE] -> index x strs = Some p -> rel v a ((o :: OStr p x :: s) :: S) F st -> goes v (a + 1) (s :: S) F (set_glob st x o).
Proof.
  intros HA Hx HR. destruct (rel_run _ _ _ _ _ _ _ _ HA HR) as [HC _]. pose proof (rel_stack _ _ _ _ _ _ HR) as HS. split; [fin_ HC HR|]. destruct HR as [R1 R2 R3 R4 R4' [H1 H2 H2' H3 H4 H5 H6]].
  Opaque gsym_set gsym_get. rewrite (step_at flist powf code size v _ (proj1 HC)). cbn [Vm.exec]. rewrite (run_inc code size v _ _ HC).
  unfold vm_gstore, stack_assert, type_assert, stack_at. change (stack (bump v)) with (stack v). rewrite HS.
  replace (zlen (o :: OStr p x :: s) - 2 <? 0) with false by (unfold zlen; cbn [length]; lia). cbn. eexists. split; [reflexivity|].
  split; cbn; auto; [congruence|rewrite R3; reflexivity|]. split; cbn; auto using stored_set.
  intros y q Hy. unfold global. cbn [v_gsyms set_gsyms set_stack set_stacks]. change (v_gsyms (bump v)) with (v_gsyms v).
  rewrite get_stored by auto. destruct (same x y) eqn:E.
  - apply same_true in E. subst y. replace q with p by congruence. rewrite Z.eqb_refl. reflexivity.
  - destruct (p =? q) eqn:Ep; [|rewrite (H4 y q Hy); reflexivity]. exfalso. destruct (Hstrs p x Hx). destruct (Hstrs q y Hy).
    assert (x = y) by (replace q with p in * by lia; specialize (H0 _ H2'); specialize (H8 _ H2'); congruence). subst y. unfold same in E. destruct (list_eq_dec Z.eq_dec x x); congruence.
Qed.
Transparent gsym_set gsym_get.
Lemma go_jump v a s S F st n : at_ a [insl I_JUMP n] -> 0 <= env (labname n) < size -> size <= 2 ^ 31 -> rel v a (s :: S) F st -> goes v (env (labname n)) (s :: S) F st.
Proof.
  intros HA Hn Hs HR. destruct (rel_run _ _ _ _ _ _ _ _ HA HR) as [HC HI]. specialize (HI eq_refl). split; [fin_ HC HR|].
  rewrite (arg_exec flist powf code size v I_JUMP (fun v a => Ok (assert_pc size (set_pc v (sign32 a))))); auto. rewrite HI. cbn [operand_value]. rewrite sign_small by lia.
  unfold assert_pc. cbn [v_pc set_pc]. replace (pc_ok size (env (labname n))) with true by (unfold pc_ok; lia). eexists. split; [reflexivity|].
  replace (set_pc (set_pc (bump v) (v_pc v + 5)) (env (labname n))) with (goto v (env (labname n)) s).
  { eapply rel_goto; eauto. }
  unfold goto, bump, set_pc, set_oldpc. cbn. rewrite (r_stacks _ _ _ _ _ HR). reflexivity.
Qed.
Lemma go_jumpif v a o s S F st n (t : bool) : at_ a [insl (if t then I_JUMPNZ else I_JUMPZ) n] -> 0 <= env (labname n) < size -> size <= 2 ^ 31 -> rel v a ((o :: s) :: S) F st ->
  goes v (if Bool.eqb (truthy o) t then env (labname n) else a + 5) (s :: S) F st.
Proof.
  intros HA Hn Hs HR. destruct (rel_run _ _ _ _ _ _ _ _ HA HR) as [HC HI]. split; [destruct t; fin_ HC HR|].
  assert (HE : vm_step v = vm_jumpif code size v t) by (rewrite (step_at flist powf code size v _ (proj1 HC)); destruct t; reflexivity).
  rewrite HE, (jump_step X code size v o s t HC) by (eapply rel_stack; eauto). rewrite HI by (destruct t; reflexivity). cbn [operand_value]. rewrite sign_small by lia.
  replace (pc_ok size (env (labname n))) with true by (unfold pc_ok; lia).
  destruct (Bool.eqb (truthy o) t); (eexists; split; [reflexivity|]); [eapply rel_goto; eauto|eapply rel_next; eauto].
Qed.

(** Local variables. *)
Lemma set_frame f g (F0 : list lsyms) : (forall x, In x (f :: F0) -> ~ In None (ls_syms x)) -> ~ In None (ls_syms g) -> forall x, In x (g :: F0) -> ~ In None (ls_syms x).
Proof. intros H Hg x [->|Hx]; auto. apply H. right. auto. Qed.
Lemma firstn_in {A} n (l : list A) x : In x (firstn n l) -> In x l.
Proof. revert l. induction n as [|n IH]; intros [|y l]; cbn; try tauto. intros [->|H]; auto. Qed.
Lemma upd_in {A} (l : list A) : forall i x y, In y (upd l i x) -> y = x \/ In y l.
Proof. induction l as [|z l IH]; intros [|i] x y; cbn; try tauto; intros [->|H]; auto. destruct (IH _ _ _ H); auto. Qed.
Lemma slot_full syms i o : (i <= length syms)%nat -> ~ In None syms -> ~ In None (slot_set syms i o).
Proof.
  intros Hi HN. unfold slot_set. destruct (Nat.ltb i (length syms)) eqn:E.
  - intro H. apply upd_in in H as [H|H]; [discriminate|auto].
  - apply Nat.ltb_ge in E. replace (i - length syms)%nat with 0%nat by lia. cbn [repeat app]. intro H. apply in_app_or in H as [H|[H|[]]]; [auto|discriminate].
Qed.
Lemma go_lload v a s S F0 st i syms sw o : at_ a [insn I_LLOAD i] -> 0 <= i < zlen syms -> zlen syms <= 2 ^ 31 -> nth_error syms (Z.to_nat i) = Some (Some o) ->
  rel v a (s :: S) (mkLs syms sw :: F0) st -> goes v (a + 5) ((o :: s) :: S) (mkLs syms sw :: F0) st.
Proof.
  intros HA Hi Hl Ho HR. destruct (rel_run _ _ _ _ _ _ _ _ HA HR) as [HC HI]. specialize (HI eq_refl). eapply goes_next; [exact HR| |fin_ HC HR].
  rewrite (arg_exec flist powf code size v I_LLOAD vm_lload); auto. rewrite HI. cbn [operand_value]. rewrite wrap_small by lia.
  unfold vm_lload. cbn [v_lsymts set_pc bump set_oldpc]. rewrite (r_frames _ _ _ _ _ HR). cbn [ls_syms]. replace (zlen syms - 1 <? i) with false by lia. rewrite Ho.
  rewrite <- (rel_stack _ _ _ _ _ _ HR). unfold push, set_stack, set_stacks, next, bump, set_oldpc, set_pc. cbn. rewrite (r_frames _ _ _ _ _ HR). reflexivity.
Qed.
Lemma go_lstore v a s S F0 st i syms sw o : at_ a [insn I_LSTORE i] -> 0 <= i < 2 ^ 31 -> i <= zlen syms -> rel v a ((o :: s) :: S) (mkLs syms sw :: F0) st ->
  goes v (a + 5) (s :: S) (mkLs (slot_set syms (Z.to_nat i) o) sw :: F0) st.
Proof.
  intros HA Hi Hil HR. destruct (rel_run _ _ _ _ _ _ _ _ HA HR) as [HC HI]. specialize (HI eq_refl). split; [fin_ HC HR|].
  rewrite (arg_exec flist powf code size v I_LSTORE vm_lstore); auto. rewrite HI. cbn [operand_value]. rewrite wrap_small by lia. pose proof (rel_stack _ _ _ _ _ _ HR) as HS. destruct HR as [R1 R2 R3 R4 R4' R5].
  unfold vm_lstore, stack_assert. change (stack (set_pc (bump v) (v_pc v + 5))) with (stack v). rewrite HS. replace (zlen (o :: s) - 1 <? 0) with false by (unfold zlen; cbn [length]; lia).
  cbn [v_lsymts set_pc bump set_oldpc]. rewrite R4. cbn [ls_syms ls_swarm]. eexists. split; [reflexivity|].
  split; [exact R1|cbn; congruence|cbn; rewrite R3; reflexivity|reflexivity| |apply (like_of v); auto].
  eapply set_frame; [exact R4'|]. intro H. eapply (slot_full syms (Z.to_nat i) o); [unfold zlen in Hil; lia|apply (R4' _ (or_introl eq_refl))|exact H].
Qed.
Lemma go_lremove v a s S F0 st i syms sw : at_ a [insn I_LREMOVE i] -> 0 <= i < zlen syms -> zlen syms <= 2 ^ 31 -> rel v a (s :: S) (mkLs syms sw :: F0) st ->
  goes v (a + 5) (s :: S) (mkLs (firstn (length syms - Z.to_nat i) syms) sw :: F0) st.
Proof.
  intros HA Hi Hl HR. destruct (rel_run _ _ _ _ _ _ _ _ HA HR) as [HC HI]. specialize (HI eq_refl). split; [fin_ HC HR|].
  rewrite (arg_exec flist powf code size v I_LREMOVE vm_lremove); auto. rewrite HI. cbn [operand_value]. rewrite wrap_small by lia. destruct HR as [R1 R2 R3 R4 R4' R5].
  unfold vm_lremove. cbn [v_lsymts set_pc bump set_oldpc]. rewrite R4. cbn [ls_syms ls_swarm]. replace (zlen syms - 1 <? i) with false by lia. eexists. split; [reflexivity|].
  split; [exact R1|cbn; congruence|exact R3|reflexivity| |apply (like_of v); auto].
  eapply set_frame; [exact R4'|]. cbn [ls_syms]. intro H. apply (R4' _ (or_introl eq_refl)). cbn [ls_syms]. eapply firstn_in, H.
Qed.
Lemma all_init_some l : all_init (map (@Some obj) l) = Ok l.
Proof. induction l as [|o l IH]; auto. cbn [map all_init]. rewrite IH. reflexivity. Qed.
Definition captured (F : list lsyms) (os : list obj) : Prop := match F with [] => os = [ONil] | ls :: _ => ls_syms ls = map Some os end.
Lemma go_pushl v a s S F st n os : at_ a [insl I_PUSHL n] -> 0 <= env (labname n) < 2 ^ 31 -> captured F os -> rel v a (s :: S) F st ->
  goes v (a + 5) ((OClos true (env (labname n)) os :: s) :: S) F st.
Proof.
  intros HA Hn HF HR. destruct (rel_run _ _ _ _ _ _ _ _ HA HR) as [HC HI]. specialize (HI eq_refl). eapply goes_next; [exact HR| |fin_ HC HR].
  rewrite (arg_exec flist powf code size v I_PUSHL vm_pushl); auto. rewrite HI. cbn [operand_value].
  unfold vm_pushl. rewrite sign_small by auto. cbn [v_lsymts set_pc bump set_oldpc]. rewrite (r_frames _ _ _ _ _ HR). rewrite <- (rel_stack _ _ _ _ _ _ HR).
  unfold captured in HF. destruct F as [|ls F0]; [subst os|rewrite HF, all_init_some; cbn [bind]]; unfold push, set_stack, set_stacks, next, bump, set_oldpc, set_pc; cbn; rewrite (r_frames _ _ _ _ _ HR); reflexivity.
Qed.

(** Tables. *)
Lemma go_pusht v a s S F st : at_ a [ins I_PUSHT] -> rel v a (s :: S) F st ->
  goes v (a + 1) ((OTab (zlen (s_heap st)) :: s) :: S) F (set_tabs st (s_heap st ++ [tab_new])).
Proof.
  intros HA HR. destruct (rel_run _ _ _ _ _ _ _ _ HA HR) as [HC _]. split; [fin_ HC HR|]. destruct HR as [R1 R2 R3 R4 R4' R5].
  rewrite (step_at flist powf code size v _ (proj1 HC)). cbn [Vm.exec]. unfold op_inc, vm_pusht, new_table. cbn [bind]. unfold inc_pc.
  cbn [v_pc set_pc set_oldpc push set_stack set_stacks set_heap]. destruct HC as (_ & H1 & H2). change (instr_len I_PUSHT) with 1 in H2.
  replace (pc_ok size (v_pc v + 1)) with true by (unfold pc_ok; lia). eexists. split; [reflexivity|].
  destruct R5 as [K1 K2 K2' K3 K4 K5 K6]. split; cbn; auto; [congruence|unfold stack; cbn; rewrite R3, K1; reflexivity|]. split; cbn; auto. rewrite K1. reflexivity.
Qed.
Lemma sim_tget v a t k s S F st n : at_ a [ins I_TGET] -> rel v a ((k :: t :: s) :: S) F st ->
  sim n v (get_val st t k) (fun r v' => rel v' (a + 1) ((r :: s) :: S) F st).
Proof.
  intros HA HR. destruct (rel_run _ _ _ _ _ _ _ _ HA HR) as [HC _]. pose proof (rel_stack _ _ _ _ _ _ HR) as HS. assert (HF : fine v) by fin_ HC HR.
  pose proof (step_at flist powf code size v _ (proj1 HC)) as HE. cbn [Vm.exec] in HE. unfold vm_tget, stack_assert, type_assert, stack_at in HE. rewrite HS in HE.
  replace (zlen (k :: t :: s) - 2 <? 0) with false in HE by (unfold zlen; cbn [length]; lia).
  change (nth_error (k :: t :: s) (Z.to_nat (2 - 1))) with (Some t) in HE. cbn [bind Z.leb Z.compare Pos.compare Pos.compare_cont] in HE.
  destruct t; try (cbn in HE; eapply sim_fail; [split; [exact HF|exact HE]|reflexivity|reflexivity]). cbn [otype] in HE. rewrite Z.eqb_refl in HE. cbn [get_val].
  destruct (is_key k); [|exact I]. unfold tab_at, table_at in *. cbn [v_heap set_stack set_stacks] in HE. rewrite (lk_heap _ _ (r_like _ _ _ _ _ HR)) in HE.
  destruct (0 <=? a0); [|exact I]. destruct (nth_error (s_heap st) (Z.to_nat a0)) as [d|]; [|exact I]. cbn [obind bind] in *.
  destruct (tab_get d k) as [r| | |]; try exact I. cbn [of_res obind bind] in *. unfold if_ready in HE. cbn [bind v_state push set_stack set_stacks] in HE.
  rewrite (r_ready _ _ _ _ _ HR) in HE. cbn [is_ready] in HE. unfold inc_pc in HE. cbn [v_pc set_pc set_oldpc set_stack set_stacks push] in HE.
  destruct HC as (_ & H1 & H2). change (instr_len I_TGET) with 1 in H2. replace (pc_ok size (v_pc v + 1)) with true in HE by (unfold pc_ok; lia).
  eapply sim_step; [split; [exact HF|exact HE]|]. apply sim_done. eapply rel_next with (len := 1) in HR. exact HR.
Qed.
Lemma sim_tput v a t k x s S F st n : at_ a [ins I_TPUT] -> rel v a ((x :: k :: t :: s) :: S) F st ->
  sim n v (put_val st t k x) (fun st' v' => rel v' (a + 1) (s :: S) F st').
Proof.
  intros HA HR. destruct (rel_run _ _ _ _ _ _ _ _ HA HR) as [HC _]. pose proof (rel_stack _ _ _ _ _ _ HR) as HS. assert (HF : fine v) by fin_ HC HR.
  pose proof (step_at flist powf code size v _ (proj1 HC)) as HE. cbn [Vm.exec] in HE. unfold vm_tput, stack_assert, type_assert, stack_at in HE. rewrite HS in HE.
  replace (zlen (x :: k :: t :: s) - 3 <? 0) with false in HE by (unfold zlen; cbn [length]; lia).
  change (nth_error (x :: k :: t :: s) (Z.to_nat (3 - 1))) with (Some t) in HE. cbn [bind Z.leb Z.compare Pos.compare Pos.compare_cont] in HE.
  destruct t; try (cbn in HE; eapply sim_fail; [split; [exact HF|exact HE]|reflexivity|reflexivity]). cbn [otype] in HE. rewrite Z.eqb_refl in HE. cbn [put_val].
  destruct (is_key k); [|cbn in HE; eapply sim_fail; [split; [exact HF|exact HE]|reflexivity|reflexivity]].
  unfold tab_at, table_at in *. cbn [v_heap set_stack set_stacks] in HE. destruct HR as [R1 R2 R3 R4 R4' [K1 K2 K2' K3 K4 K5 K6]]. rewrite K1 in HE.
  destruct (0 <=? a0); [|exact I]. destruct (nth_error (s_heap st) (Z.to_nat a0)) as [d|]; [|exact I]. cbn [obind bind] in *.
  set (w := match x with ONil => tab_remove d k | _ => tab_set d k (bind_self (OTab a0) x) end) in *.
  destruct w as [d'| | |]; try exact I. cbn [of_res obind bind] in *. unfold if_ready in HE. cbn [bind v_state tab_put set_heap set_stack set_stacks] in HE.
  rewrite R1 in HE. cbn [is_ready] in HE. unfold inc_pc in HE. cbn [v_pc set_pc set_oldpc set_stack set_stacks tab_put set_heap] in HE.
  destruct HC as (_ & H1 & H2). change (instr_len I_TPUT) with 1 in H2. replace (pc_ok size (v_pc v + 1)) with true in HE by (unfold pc_ok; lia).
  eapply sim_step; [split; [exact HF|exact HE]|]. apply sim_done. split; cbn; auto; [congruence|rewrite R3; reflexivity|]. split; cbn; auto. rewrite K1. reflexivity.
Qed.

(** Operators. *)
Lemma op_done v a s S F st o (y : obj) n (z1 : obj) (s0 : list obj) : can_run code size v o -> instr_len o = 1 /\ o <> I_PUSHS -> rel v a (s :: S) F st -> vm_step v = op_inc size (Ok (push (set_stack v s0) y)) ->
  z1 = y -> sim n v (Done z1) (fun r v' => rel v' (a + 1) ((r :: s0) :: S) F st).
Proof.
  intros HC [HL HO] HR HE ->. assert (HN : vm_step v = Ok (next v 1 (y :: s0))). { rewrite HE. apply (op_inc_next code size v o y s0 (fun v => Ok (push (set_stack v s0) y))); auto. }
  eapply sim_step; [split; [eapply run_fine; eauto|exact HN]|]. apply sim_done. eapply rel_next; eauto.
Qed.
Lemma op_fail {A} v a S F st o n w (Q : A -> vm X -> Prop) : can_run code size v o -> instr_len o = 1 /\ o <> I_PUSHS -> rel v a S F st -> vm_step v = op_inc size (Ok (err w E_TYPE)) -> v_pc w = v_pc v -> sim n v (Fail E_TYPE) Q.
Proof.
  intros HC [HL HO] HR HE HP. pose proof HC as (_ & H1 & H2). rewrite HL in H2. unfold op_inc, inc_pc in HE. cbn [bind v_pc set_pc set_oldpc err set_state] in HE. rewrite HP in HE.
  replace (pc_ok size (v_pc v + 1)) with true in HE by (unfold pc_ok; lia). eapply sim_fail; [split; [eapply run_fine; eauto|exact HE]|reflexivity|reflexivity].
Qed.
Ltac pre HA HR HC HE :=
  destruct (rel_run _ _ _ _ _ _ _ _ HA HR) as [HC _]; pose proof (rel_stack _ _ _ _ _ _ HR) as HS;
  pose proof (step_at flist powf code size _ _ (proj1 HC)) as HE.
Ltac two HE := match type of HE with context [zlen (?y :: ?x :: ?s) - 2 <? 0] => replace (zlen (y :: x :: s) - 2 <? 0) with false in HE by (unfold zlen; cbn [length]; lia) end.
Ltac one HE := match type of HE with context [zlen (?y :: ?s) - 1 <? 0] => replace (zlen (y :: s) - 1 <? 0) with false in HE by (unfold zlen; cbn [length]; lia) end.
Ltac fin HC HR HE := first [exact I | eapply op_done; [exact HC|split; [reflexivity|discriminate]|exact HR|exact HE|reflexivity] | eapply op_fail; [exact HC|split; [reflexivity|discriminate]|exact HR|exact HE|reflexivity]].
Lemma sim_arith v a x y s S F st n o iop fop : at_ a [ins o] -> instr_len o = 1 /\ o <> I_PUSHS -> (forall v, Vm.exec flist powf code size v o = op_inc size (vm_arith v iop fop)) -> rel v a ((y :: x :: s) :: S) F st ->
  sim n v (numbers x y (of_res (arith iop fop x y))) (fun r v' => rel v' (a + 1) ((r :: s) :: S) F st).
Proof.
  intros HA HL HX HR. pre HA HR HC HE. rewrite HX in HE. unfold vm_arith, stack_assert in HE. rewrite HS in HE. two HE. unfold numbers. rewrite andb_comm.
  destruct (is_num y && is_num x)%bool; [|eapply op_fail; [exact HC|exact HL|exact HR|exact HE|reflexivity]].
  destruct (arith iop fop x y); try exact I. cbn [of_res bind] in *. eapply op_done; [exact HC|exact HL|exact HR|exact HE|reflexivity].
Qed.
Lemma sim_bits v a x y s S F st n o f : at_ a [ins o] -> instr_len o = 1 /\ o <> I_PUSHS -> (forall v, Vm.exec flist powf code size v o = op_inc size (vm_bitwise v f)) -> rel v a ((y :: x :: s) :: S) F st ->
  sim n v (on_ints x y f) (fun r v' => rel v' (a + 1) ((r :: s) :: S) F st).
Proof.
  intros HA HL HX HR. pre HA HR HC HE. rewrite HX in HE. unfold vm_bitwise, stack_assert, type_assert, stack_at in HE. rewrite HS in HE. two HE.
  change (nth_error (y :: x :: s) (Z.to_nat (2 - 1))) with (Some x) in HE. change (nth_error (y :: x :: s) (Z.to_nat (1 - 1))) with (Some y) in HE. cbn [bind Z.leb Z.compare Pos.compare Pos.compare_cont] in HE.
  unfold on_ints. destruct y; try (destruct x; (eapply op_fail; [exact HC|exact HL|exact HR|exact HE|reflexivity])).
  destruct x; try (eapply op_fail; [exact HC|exact HL|exact HR|exact HE|reflexivity]). cbn [otype] in HE. rewrite Z.eqb_refl in HE.
  destruct (f z0 z); try exact I. cbn [of_res bind] in *. eapply op_done; [exact HC|exact HL|exact HR|exact HE|reflexivity].
Qed.
Lemma sim_cmp v a x y s S F st n o f : at_ a [ins o] -> instr_len o = 1 /\ o <> I_PUSHS -> (forall v, Vm.exec flist powf code size v o = op_inc size (vm_cmp powf v f)) -> rel v a ((y :: x :: s) :: S) F st ->
  sim n v (compared powf x y f) (fun r v' => rel v' (a + 1) ((r :: s) :: S) F st).
Proof.
  intros HA HL HX HR. pre HA HR HC HE. rewrite HX in HE. unfold vm_cmp, stack_assert in HE. rewrite HS in HE. two HE. unfold compared.
  destruct (obj_cmp_by _ x y); try exact I. cbn [of_res obind bind] in *. eapply op_done; [exact HC|exact HL|exact HR|exact HE|reflexivity].
Qed.
Lemma sim_logic v a x y s S F st n o f : at_ a [ins o] -> instr_len o = 1 /\ o <> I_PUSHS -> (forall v, Vm.exec flist powf code size v o = op_inc size (vm_logic v f)) -> rel v a ((y :: x :: s) :: S) F st ->
  sim n v (Done (of_bool (f (truthy x) (truthy y)))) (fun r v' => rel v' (a + 1) ((r :: s) :: S) F st).
Proof.
  intros HA HL HX HR. pre HA HR HC HE. rewrite HX in HE. unfold vm_logic, stack_assert in HE. rewrite HS in HE. two HE.
  eapply op_done; [exact HC|exact HL|exact HR|exact HE|reflexivity].
Qed.
Lemma sim_bin b v a x y s S F st n : at_ a [ins (bin_op b)] -> rel v a ((y :: x :: s) :: S) F st ->
  sim n v (bin_val powf b x y) (fun r v' => rel v' (a + 1) ((r :: s) :: S) F st).
Proof.
  intros HA HR. destruct b; cbn [bin_val bin_op] in *;
    try (eapply sim_arith; [exact HA|split; [reflexivity|discriminate]|reflexivity|exact HR]); try (eapply sim_bits; [exact HA|split; [reflexivity|discriminate]|reflexivity|exact HR]);
    try (eapply sim_cmp; [exact HA|split; [reflexivity|discriminate]|reflexivity|exact HR]).
  - eapply (sim_logic v a x y s S F st n I_LAND andb); [exact HA|split; [reflexivity|discriminate]|reflexivity|exact HR].
  - eapply (sim_logic v a x y s S F st n I_LOR orb); [exact HA|split; [reflexivity|discriminate]|reflexivity|exact HR].
  - pre HA HR HC HE. cbn [Vm.exec] in HE. unfold vm_mod, stack_assert in HE. rewrite HS in HE. two HE. unfold numbers. destruct x, y; cbn [is_num andb] in *; try fin HC HR HE.
    destruct (int_mod z z0); try exact I. cbn [of_res bind] in *. fin HC HR HE.
  - pre HA HR HC HE. cbn [Vm.exec] in HE. unfold vm_pow, stack_assert in HE. rewrite HS in HE. two HE. unfold numbers. destruct x, y; cbn [is_num andb] in *; fin HC HR HE.
Qed.
Lemma sim_un u v a x s S F st n : at_ a [ins (un_op u)] -> rel v a ((x :: s) :: S) F st ->
  sim n v (un_val u x) (fun r v' => rel v' (a + 1) ((r :: s) :: S) F st).
Proof.
  intros HA HR. destruct u; cbn [un_val un_op] in *; pre HA HR HC HE; cbn [Vm.exec] in HE.
  - unfold vm_unm, stack_assert in HE. rewrite HS in HE. one HE. destruct x; try fin HC HR HE. destruct (i32 (- z)); try exact I. cbn [of_res bind] in *. fin HC HR HE.
  - unfold vm_bnot, stack_assert, type_assert, stack_at in HE. rewrite HS in HE. one HE. change (nth_error (x :: s) (Z.to_nat (1 - 1))) with (Some x) in HE. cbn [bind Z.leb Z.compare Pos.compare Pos.compare_cont] in HE.
    destruct x; try fin HC HR HE.
  - unfold vm_lnot, stack_assert in HE. rewrite HS in HE. one HE. fin HC HR HE.
Qed.

(** Calls and returns. *)
Lemma go_ret0 v a ls F0 st s o s0 S ra : about_to code v I_RET0 -> rel v a (o :: (OInt ra :: s0) :: S) (ls :: F0) st -> ls_swarm ls = false -> 0 <= ra < size ->
  s = s0 -> goes v ra ((ONil :: s) :: S) F0 st.
Proof.
  intros HC HR HL Hra ->. split; [eapply about_fine; [exact HR|exact HC|discriminate]|]. destruct HR as [R1 R2 R3 R4 R4' R5]. rewrite (step_at flist powf code size v _ HC). cbn [Vm.exec]. unfold vm_ret0, pop_lsyms. rewrite R4, HL. cbn [bind].
  unfold pop_stacks. cbn [v_stacks set_lsymts]. rewrite R3. cbn [bind]. unfold ret_to, stack_assert, type_assert, stack_at, stack. cbn [v_stacks set_stacks hd].
  replace (zlen (OInt ra :: s0) - 1 <? 0) with false by (unfold zlen; cbn [length]; lia). cbn. rewrite R1. cbn. unfold assert_pc. cbn. replace (pc_ok size ra) with true by (unfold pc_ok; lia).
  eexists. split; [reflexivity|]. split; cbn; auto; [intros f Hf; apply R4'; right; exact Hf|apply (like_of v); auto].
Qed.
Lemma go_ret1 v a ls F0 st o s1 s0 S ra : at_ a [ins I_RET1] -> rel v a ((o :: s1) :: (OInt ra :: s0) :: S) (ls :: F0) st -> ls_swarm ls = false -> 0 <= ra < size ->
  goes v ra ((o :: s0) :: S) F0 st.
Proof.
  intros HA HR HL Hra. destruct (rel_run _ _ _ _ _ _ _ _ HA HR) as [HC _]. split; [fin_ HC HR|]. destruct HR as [R1 R2 R3 R4 R4' R5]. rewrite (step_at flist powf code size v _ (proj1 HC)). cbn [Vm.exec].
  unfold vm_ret1, pop_lsyms. rewrite R4, HL. cbn [bind]. unfold stack_assert at 1, stack. cbn [v_stacks set_lsymts]. rewrite R3. cbn [hd].
  replace (zlen (o :: s1) - 1 <? 0) with false by (unfold zlen; cbn [length]; lia).
  unfold pop_stacks. cbn [v_stacks set_lsymts]. rewrite R3. cbn [bind]. unfold ret_to, stack_assert, type_assert, stack_at, stack. cbn [v_stacks set_stacks hd].
  replace (zlen (OInt ra :: s0) - 1 <? 0) with false by (unfold zlen; cbn [length]; lia). cbn. rewrite R1. cbn. unfold assert_pc. cbn. replace (pc_ok size ra) with true by (unfold pc_ok; lia).
  eexists. split; [reflexivity|]. split; cbn; auto; [intros f Hf; apply R4'; right; exact Hf|apply (like_of v); auto].
Qed.
End G.
