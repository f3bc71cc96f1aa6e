(** Theorems about the virtual machine: C36-C43, C61-C63. *)
From Verif Require Import Base ListLemmas Float Dict DictSpec PDict DictProofs PDictKeys Strman Obj ObjSpec ObjProofs Instr Vm VmSpec VmProofs VmFrames.


(** ** C36: instructions are fetched inside the bytecode *)

Lemma exec_memory X flist powf size code1 code2 (v : vm X) o :
  (forall i, 0 <= i < size -> code1 i = code2 i) -> 0 <= v_pc v < size ->
  exec flist powf code1 size v o = exec flist powf code2 size v o.
Proof.
  intros HM HP.
  assert (HA : forall k, get_arg code1 size (bump v) k = get_arg code2 size (bump v) k).
  { intro k. unfold get_arg. destruct (pc_ok size (v_pc (bump v) + 4)) eqn:E; auto. f_equal. unfold pc_ok in E.
    unfold bump, word in *. cbn [v_pc set_pc set_oldpc] in *. rewrite !HM by lia. reflexivity. }
  assert (HI : forall k1 k2, k1 (bump v) = k2 (bump v) -> inc_pc size v k1 = inc_pc size v k2).
  { intros k1 k2 E. unfold inc_pc. destruct (pc_ok _ _); auto. }
  destruct o; cbn [exec]; try reflexivity; unfold vm_jumpif; apply HI; apply HA.
Qed.
Lemma step_memory X flist powf size code1 code2 (v : vm X) :
  (forall i, 0 <= i < size -> code1 i = code2 i) -> 0 <= v_pc v < size ->
  vm_step flist powf code1 size v = vm_step flist powf code2 size v.
Proof.
  intros HM HP. unfold vm_step. destruct (is_ready _); auto. rewrite HM by auto. destruct (opcode_of _); auto. apply exec_memory; auto.
Qed.

(** The result of any number of steps does not depend on the memory around the bytecode, and
    the program counter of a VM that can go on points into the bytecode. *)
Theorem C36_fetch_inside_bytecode_partial :
  forall X flist powf size (code1 code2 : Z -> Z) n (v : vm X),
    (forall i, 0 <= i < size -> code1 i = code2 i) -> 0 <= v_pc v < size ->
    vm_steps flist powf code1 size n v = vm_steps flist powf code2 size n v /\
    forall v', vm_steps flist powf code1 size n v = Ok v' -> v_state v' = S_READY -> 0 <= v_pc v' < size.
Proof.
  intros X flist powf size code1 code2 n v HM. revert v. induction n as [|n IH]; intros v HP.
  - split; auto. cbn [vm_steps]. intros v' H _. inversion H; subst. auto.
  - cbn [vm_steps]. rewrite (step_memory X flist powf size code1 code2 v HM HP).
    destruct (vm_step flist powf code2 size v) as [v1| | |] eqn:E; cbn [bind]; try (split; [reflexivity|discriminate]).
    pose proof (step_pc _ _ _ _ _ _ E) as HI. destruct (v_state v1) eqn:ES.
    2: { specialize (HI ES). unfold pc_ok in HI. apply IH. lia. }
    all: rewrite !steps_stopped by congruence; split; [reflexivity|]; intros v' H HR; inversion H; subst; congruence.
Qed.
Print Assumptions C36_fetch_inside_bytecode_partial.

(** An instruction whose argument does not fit is refused. *)
Theorem C36_truncated_instruction :
  forall X flist powf size code (v : vm X) o,
    about_to code v o -> has_arg o = true -> 0 <= v_pc v < size -> size <= v_pc v + 5 ->
    exists v', vm_step flist powf code size v = Ok v' /\ v_state v' = S_ERROR /\ v_error v' = E_PC /\
      v_stacks v' = v_stacks v /\ v_lsymts v' = v_lsymts v /\ v_gsyms v' = v_gsyms v /\ v_heap v' = v_heap v.
Proof.
  intros X flist powf size code v o HA HO HP HS. rewrite (step_at flist powf code size v o HA).
  assert (HI : forall k, exists v', inc_pc size v (fun w => get_arg code size w k) = Ok v' /\ v_state v' = S_ERROR /\ v_error v' = E_PC /\
      v_stacks v' = v_stacks v /\ v_lsymts v' = v_lsymts v /\ v_gsyms v' = v_gsyms v /\ v_heap v' = v_heap v).
  { intro k. unfold inc_pc, get_arg. cbn [v_pc set_pc set_oldpc]. destruct (pc_ok size (v_pc v + 1)).
    - replace (pc_ok size (v_pc v + 1 + 4)) with false; [eexists; repeat split; reflexivity|]. unfold pc_ok. lia.
    - eexists. repeat split; reflexivity. }
  destruct o; try discriminate HO; cbn [exec]; unfold vm_jumpif; apply HI.
Qed.
Print Assumptions C36_truncated_instruction.

(** A concrete case: pushi 7 followed by another byte, in a bytecode of six bytes. *)
Definition mem_of (l : list Z) (i : Z) : Z := if 0 <=? i then nth (Z.to_nat i) l 0 else 0.
Definition vm0 : vm unit := set_state (vm_new tt) S_READY E_NONE.
Definition no_pow : libm := lib_with (fun _ _ => S754_nan).
Example C36_nontrivial :
  let code := mem_of [36; 7; 0; 0; 0; 4; 1] in
  match vm_steps [] no_pow code 7 2 vm0 with
  | Ok v => v_pc v = 6 /\ stack v = [] /\ v_state v = S_READY
  | _ => False
  end.
Proof. vm_compute. repeat split. Qed.

(** buzzvm_closure_call() starts a closure without checking its address: a closure that refers
    to an address past the end of the bytecode (a script can create one with pushcn, and one can
    arrive in a message) makes the VM execute whatever follows the bytecode in memory. *)
Theorem C36_closure_call_refuted :
  exists size code1 code2 (v : vm unit) r1 r2,
    (forall i, 0 <= i < size -> code1 i = code2 i) /\ v_state v = S_READY /\ 0 <= v_pc v < size /\
    closure_call [] no_pow code1 size 5 v 0 = Ok r1 /\ closure_call [] no_pow code2 size 5 v 0 = Ok r2 /\
    v_state r1 = S_DONE /\ v_state r2 = S_ERROR.
Proof.
  exists 1, (fun i => if i =? 100 then 1 else 0), (fun i => if i =? 100 then 200 else 0), (push vm0 (OClos true 100 [ONil])).
  do 2 eexists. split; [intros i Hi; destruct (i =? 100) eqn:E; [lia|reflexivity]|].
  split; [reflexivity|]. split; [cbn; lia|].
  split; [vm_compute; reflexivity|]. split; [vm_compute; reflexivity|]. split; reflexivity.
Qed.
Print Assumptions C36_closure_call_refuted.

(** ** C37: a VM that has stopped stays stopped *)

Theorem C37_stopped_stays_stopped :
  forall X flist powf size code n m (v v1 : vm X),
    vm_steps flist powf code size n v = Ok v1 -> v_state v1 <> S_READY ->
    vm_steps flist powf code size (n + m) v = Ok v1.
Proof. intros X flist powf size code n m v v1 H HS. rewrite steps_app, H. cbn [bind]. apply steps_stopped. auto. Qed.
Print Assumptions C37_stopped_stays_stopped.

(** buzzvm_execute_script() stops in the first state that is not ready. *)
Theorem C37_script_runs_to_first_stop :
  forall X flist powf size code fuel (v v' : vm X),
    execute_script flist powf code size fuel v = Ok v' ->
    exists n, (n < fuel)%nat /\ vm_steps flist powf code size (S n) v = Ok v' /\ v_state v' <> S_READY /\
      forall m w, (0 < m <= n)%nat -> vm_steps flist powf code size m v = Ok w -> v_state w = S_READY.
Proof.
  intros X flist powf size code. induction fuel as [|f IH]; intros v v' H; cbn [execute_script] in H; [discriminate|].
  destruct (vm_step flist powf code size v) as [v1| | |] eqn:E; cbn [bind] in H; try discriminate.
  destruct (is_ready (v_state v1)) eqn:ER.
  - apply IH in H as (n & H1 & H2 & H3 & H4). exists (S n). split; [lia|]. split.
    { cbn [vm_steps]. rewrite E. cbn [bind]. exact H2. } split; auto.
    intros m w Hm Hw. destruct m as [|m]; [lia|]. cbn [vm_steps] in Hw. rewrite E in Hw. cbn [bind] in Hw. destruct m as [|m].
    + cbn [vm_steps] in Hw. inversion Hw; subst. destruct (v_state w); try discriminate; reflexivity.
    + apply (H4 (S m) w); auto. lia.
  - inversion H; subst. exists 0%nat. split; [lia|]. split; [cbn [vm_steps]; rewrite E; reflexivity|]. split.
    + intro HR. rewrite HR in ER. discriminate.
    + intros m w Hm. lia.
Qed.
Print Assumptions C37_script_runs_to_first_stop.

(** After an error, or before a script is loaded, calling a function changes nothing either. *)
Theorem C37_no_calls_after_error :
  forall X flist powf size code fuel (v : vm X) fname argc,
    v_state v = S_ERROR \/ v_state v = S_STOPPED \/ v_state v = S_NOCODE ->
    function_call flist powf code size fuel v fname argc = Ok v.
Proof. intros X flist powf size code fuel v fname argc [H|[H|H]]; unfold function_call; rewrite H; cbn; rewrite H; reflexivity. Qed.
Print Assumptions C37_no_calls_after_error.

Example C37_nontrivial :
  let code := mem_of [2; 2; 7; 0; 0] in    (* pushnil pushnil add *)
  match vm_steps [] no_pow code 5 3 vm0 with
  | Ok v => v_state v = S_ERROR /\ v_error v = E_TYPE /\ execute_script [] no_pow code 5 9 vm0 = Ok v
  | _ => False
  end.
Proof. vm_compute. repeat split. Qed.
