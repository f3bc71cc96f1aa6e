(** Theorems about variables and tables: C41, C42. *)
From Verif Require Import Base ListLemmas Float Dict DictSpec PDict DictProofs PDictKeys Strman Obj ObjSpec ObjProofs Instr Vm VmSpec VmProofs VmFrames VmHeap PropsVm.

Lemma nth_error_firstn_lt {A} (l : list A) : forall n i, (i < n)%nat -> nth_error (firstn n l) i = nth_error l i.
Proof.
  induction l as [|x l IH]; intros [|n] [|i] H; cbn; try reflexivity; try lia. apply IH. lia.
Qed.

Lemma slot_set_same l i x : nth_error (slot_set l i x) i = Some (Some x).
Proof.
  unfold slot_set. destruct (Nat.ltb_spec i (length l)).
  - apply nth_error_upd_same. auto.
  - rewrite nth_error_app2 by lia. rewrite nth_error_app2 by (rewrite repeat_length; lia). rewrite repeat_length, Nat.sub_diag. reflexivity.
Qed.
Lemma slot_set_other l i j x y : j <> i -> nth_error l i = Some (Some y) -> nth_error (slot_set l j x) i = Some (Some y).
Proof.
  intros HJ H. assert (Hi : (i < length l)%nat) by (apply nth_error_Some; congruence).
  unfold slot_set. destruct (Nat.ltb_spec j (length l)).
  - rewrite nth_error_upd_other by auto. auto.
  - rewrite nth_error_app1 by auto. auto.
Qed.

Section L.
Context {X : Type}.
Implicit Types v : vm X.
Variable flist : list (vm X -> res (vm X)).
Variable powf : libm.
Variable code : Z -> Z.
Variable size : Z.
Notation vm_step := (vm_step flist powf code size).
Notation vm_steps := (vm_steps flist powf code size).
Notation can_run := (can_run code size).
Notation about_to := (about_to code).

Lemma run_inc v o k : can_run v o -> inc_pc size v k = k (bump v).
Proof.
  intros (_ & H0 & H1). unfold inc_pc. cbn [v_pc set_pc set_oldpc].
  replace (pc_ok size (v_pc v + 1)) with true; [reflexivity|]. symmetry. unfold pc_ok. unfold instr_len in H1. destruct (has_arg o); lia.
Qed.
Lemma run_arg v o k : has_arg o = true -> can_run v o -> get_arg code size (bump v) k = k (set_pc (bump v) (v_pc v + 5)) (instr_arg code v).
Proof.
  intros Ho (_ & H0 & H1). unfold get_arg. cbn [v_pc set_pc set_oldpc bump].
  replace (pc_ok size (v_pc v + 1 + 4)) with true by (symmetry; unfold pc_ok; unfold instr_len in H1; rewrite Ho in H1; lia).
  replace (v_pc v + 1 + 4) with (v_pc v + 5) by lia.
  unfold word, instr_arg. replace (v_pc v + 1 + 1) with (v_pc v + 2) by lia. replace (v_pc v + 1 + 2) with (v_pc v + 3) by lia.
  replace (v_pc v + 1 + 3) with (v_pc v + 4) by lia. reflexivity.
Qed.

(** *** Globals *)
Lemma stored_wf g : stored_globals g -> PWf uintkeyhash Z.eqb g.
Proof.
  intros (l & ->). assert (HG : forall l g, PWf uintkeyhash Z.eqb g -> PWf uintkeyhash Z.eqb (fold_left (fun g e => gsym_set g (fst e) (snd e)) l g)).
  { clear. induction l as [|e l IH]; intros g H; cbn [fold_left]; auto. apply IH. unfold gsym_set. apply (wf_set _ _ _ good_u). exact H. }
  apply HG. apply (wf_new _ _ _ good_u). lia.
Qed.
Lemma stored_set g sid x : stored_globals g -> stored_globals (gsym_set g sid x).
Proof. intros (l & ->). exists (l ++ [(sid, x)]). rewrite fold_left_app. reflexivity. Qed.
Lemma get_stored g sid x sid' : stored_globals g -> gsym_get (gsym_set g sid x) sid' = if sid =? sid' then Some x else gsym_get g sid'.
Proof. intro H. unfold gsym_get, gsym_set. rewrite (get_set _ _ _ good_u) by (apply stored_wf; auto). reflexivity. Qed.

Lemma gstore_step v x sid str s : can_run v I_GSTORE -> stack v = x :: OStr sid str :: s ->
  exists v', vm_step v = Ok v' /\ v_state v' = S_READY /\ v_stacks v' = s :: tl (v_stacks v) /\ v_pc v' = v_pc v + 1 /\
    v_gsyms v' = gsym_set (v_gsyms v) sid x /\ v_heap v' = v_heap v /\ v_lsymts v' = v_lsymts v.
Proof.
  intros HC HS. rewrite (step_at flist powf code size v _ (proj1 HC)). cbn [exec]. rewrite (run_inc _ _ _ HC).
  unfold vm_gstore, stack_assert, type_assert, stack_at. change (stack (bump v)) with (stack v). rewrite HS.
  replace (zlen (x :: OStr sid str :: s) - 2 <? 0) with false by (unfold zlen; cbn [length]; lia). cbn.
  eexists. split; [reflexivity|]. cbn. split; [exact (proj1 (proj1 HC))|]. repeat split.
Qed.
Lemma gload_step v sid str s : can_run v I_GLOAD -> stack v = OStr sid str :: s ->
  vm_step v = Ok (next v 1 (global v sid :: s)).
Proof.
  intros HC HS. rewrite (step_at flist powf code size v _ (proj1 HC)). cbn [exec]. rewrite (run_inc _ _ _ HC).
  unfold vm_gload, stack_assert, type_assert, stack_at. change (stack (bump v)) with (stack v). rewrite HS.
  replace (zlen (OStr sid str :: s) - 1 <? 0) with false by (unfold zlen; cbn [length]; lia). cbn. reflexivity.
Qed.
Lemma step_global v v' sid : stored_globals (v_gsyms v) -> vm_step v = Ok v' ->
  (forall f w w', In f flist -> stored_globals (v_gsyms w) -> f w = Ok w' -> stored_globals (v_gsyms w') /\ global w' sid = global w sid) ->
  (about_to v I_GSTORE -> forall x str s, stack v <> x :: OStr sid str :: s) ->
  stored_globals (v_gsyms v') /\ global v' sid = global v sid.
Proof.
  intros HG H HF HN. apply step_inv in H as [[_ ->]|[(_ & _ & ->)|(o & HR & HO & HX)]]; [auto|auto|].
  apply exec_gsyms in HX as [E|[(-> & x & sid' & str & s & HS & E)|(f & v5 & v6 & HI & E5 & E6 & E)]].
  - unfold sameg in E. unfold global. rewrite E. auto.
  - split; [rewrite E; apply stored_set; auto|]. unfold global. rewrite E, get_stored by auto.
    destruct (Z.eqb_spec sid' sid); auto. subst. exfalso. refine (HN _ _ _ _ HS). split; auto.
    destruct (Z.lt_ge_cases (code (v_pc v)) 0); [|apply (opcode_num code); auto].
    unfold opcode_of in HO. replace (Z.to_nat (code (v_pc v))) with O in HO by lia. discriminate.
  - destruct (HF f v5 v6 HI) as [A B]; auto. { rewrite E5. auto. } unfold sameg in E. unfold global in *. rewrite E. rewrite E5 in B. auto.
Qed.

(** *** Locals *)
Definition slot_holds v (d i : nat) (x : obj) : Prop :=
  exists pre ls rest, v_lsymts v = pre ++ ls :: rest /\ length rest = d /\ nth_error (ls_syms ls) i = Some (Some x).


Hypothesis HC : Forall c_function_ok flist.
Hypothesis HB : forall i, 0 <= code i < 256.

Lemma word_pos v : 0 <= instr_arg code v.
Proof. unfold instr_arg. pose proof (HB (v_pc v + 1)). pose proof (HB (v_pc v + 2)). pose proof (HB (v_pc v + 3)). pose proof (HB (v_pc v + 4)). lia. Qed.
Lemma word_arg v : word code (v_pc v + 1) = instr_arg code v.
Proof.
  unfold word, instr_arg. replace (v_pc v + 1 + 1) with (v_pc v + 2) by lia. replace (v_pc v + 1 + 2) with (v_pc v + 3) by lia.
  replace (v_pc v + 1 + 3) with (v_pc v + 4) by lia. reflexivity.
Qed.

Lemma step_slot v v' d i x : nonempty v -> slot_holds v d i x -> vm_step v = Ok v' -> v_state v' = S_READY -> (d < fun_depth v')%nat ->
  (about_to v I_LSTORE -> fun_depth v = S d -> instr_arg code v <> Z.of_nat i) ->
  (about_to v I_LREMOVE -> fun_depth v = S d -> forall ls L, v_lsymts v = ls :: L -> instr_arg code v + Z.of_nat i < zlen (ls_syms ls)) ->
  nonempty v' /\ slot_holds v' d i x.
Proof.
  intros HN (pre & ls & rest & EL & Ed & Ei) H HR HD H1 H2. destruct (step_ready flist powf code size v v' H HR) as (HRv & o & HO & HX).
  pose proof (exec_frames flist powf code size v o v' HN HX HR) as HF. split; [eapply frames_nonempty; eauto|].
  assert (HA : code (v_pc v) = opnum o) by (apply (opcode_num code); [exact HO|apply HB]).
  assert (HAT : about_to v o) by (split; auto).
  destruct HF as [s HS HL|s ls' HS HL HO'|f v5 s ls' HI HS HL HG HF HO'|top ra s rest' ls' r HS HL HS' HP HO'].
  - destruct HL as [HL|(ls0 & t & l' & E1 & E2 & E3)]; [exists pre, ls, rest; rewrite HL; auto|].
    rewrite EL in E1. destruct pre as [|p pre].
    + cbn [app] in E1. inversion E1; subst ls0 t. exists [], (mkLs l' (ls_swarm ls)), rest. split; [exact E2|]. split; [exact Ed|]. cbn [ls_syms].
      assert (HFD : fun_depth v = S d) by (unfold fun_depth; rewrite EL; cbn; lia).
      destruct E3 as [[-> [y ->]]|[-> ->]]; rewrite word_arg.
      * apply slot_set_other; auto. specialize (H1 HAT HFD). pose proof (word_pos v). lia.
      * specialize (H2 HAT HFD ls rest EL). pose proof (word_pos v). unfold zlen in H2.
        rewrite nth_error_firstn_lt by lia. exact Ei.
    + cbn [app] in E1. inversion E1; subst. exists (mkLs l' (ls_swarm ls0) :: pre), ls, rest. repeat split; auto.
  - exists (ls' :: pre), ls, rest. rewrite HL, EL. auto.
  - pose proof (proj1 (Forall_forall _ _) HC f HI) as Hf. destruct (Hf _ _ _ _ _ _ _ HS HL HF HR) as (r & _ & E & _).
    exists pre, ls, rest. rewrite E. auto.
  - rewrite EL in HL. destruct pre as [|p pre].
    + cbn [app] in HL. inversion HL. exfalso. unfold fun_depth in HD. rewrite <- H4 in HD. lia.
    + cbn [app] in HL. inversion HL. exists pre, ls, rest. auto.
Qed.
End L.

(** ** C42: variables *)

(** Global variables: a load gives the last value stored, across any number of steps in which
    the variable is not stored again (by the script or a C function); a variable never stored
    is nil; other variables are not affected by a store. *)
Theorem C42_global_holds_last_store :
  forall X flist powf size code (v0 : vm X) x sid str s,
    can_run code size v0 I_GSTORE -> stack v0 = x :: OStr sid str :: s -> stored_globals (v_gsyms v0) ->
    exists v1, vm_step flist powf code size v0 = Ok v1 /\ v_state v1 = S_READY /\ stack v1 = s /\
      stored_globals (v_gsyms v1) /\ (forall sid', sid' <> sid -> global v1 sid' = global v0 sid') /\
      forall n v2, vm_steps flist powf code size n v1 = Ok v2 ->
        (forall f w w', In f flist -> stored_globals (v_gsyms w) -> f w = Ok w' -> stored_globals (v_gsyms w') /\ global w' sid = global w sid) ->
        (forall m w, (m < n)%nat -> vm_steps flist powf code size m v1 = Ok w -> about_to code w I_GSTORE ->
           forall y str' s', stack w <> y :: OStr sid str' :: s') ->
        forall str' s', can_run code size v2 I_GLOAD -> stack v2 = OStr sid str' :: s' ->
        vm_step flist powf code size v2 = Ok (next v2 1 (x :: s')).
Proof.
  intros X flist powf size code v0 x sid str s HC HS HG.
  destruct (gstore_step flist powf code size v0 x sid str s HC HS) as (v1 & E & A1 & A2 & A3 & A4 & A5 & A6).
  exists v1. split; [exact E|]. split; [exact A1|]. split; [unfold stack; rewrite A2; reflexivity|].
  assert (HG1 : stored_globals (v_gsyms v1)) by (rewrite A4; apply stored_set; auto). split; [exact HG1|]. split.
  { intros sid' HN. unfold global. rewrite A4, get_stored by auto. destruct (Z.eqb_spec sid sid'); [congruence|reflexivity]. }
  intros n v2 Hn HF HM str' s' HC2 HS2.
  assert (HX : stored_globals (v_gsyms v2) /\ global v2 sid = x).
  { clear HC2 HS2. revert v2 Hn. induction n as [|n IH]; intros v2 Hn.
    - cbn [vm_steps] in Hn. inversion Hn; subst v2. split; auto. unfold global. rewrite A4, get_stored, Z.eqb_refl by auto. reflexivity.
    - rewrite steps_snoc in Hn. destruct (vm_steps flist powf code size n v1) as [w| | |] eqn:Ew; cbn [bind] in Hn; try discriminate.
      destruct (IH (fun m w' Hm => HM m w' ltac:(lia)) w eq_refl) as [B1 B2].
      destruct (step_global flist powf code size w v2 sid B1 Hn HF) as [C1 C2]; [intro Ha; exact (HM n w ltac:(lia) Ew Ha)|].
      split; auto. congruence. }
  destruct HX as [_ HX]. rewrite (gload_step flist powf code size v2 sid str' s' HC2 HS2), HX. reflexivity.
Qed.
Print Assumptions C42_global_holds_last_store.

Theorem C42_global_never_stored_is_nil :
  forall X flist powf size code n (v1 v2 : vm X) sid,
    v_gsyms v1 = v_gsyms (vm_new (v_ext v1)) -> vm_steps flist powf code size n v1 = Ok v2 ->
    (forall f w w', In f flist -> stored_globals (v_gsyms w) -> f w = Ok w' -> stored_globals (v_gsyms w') /\ global w' sid = global w sid) ->
    (forall m w, (m < n)%nat -> vm_steps flist powf code size m v1 = Ok w -> about_to code w I_GSTORE ->
       forall y str' s', stack w <> y :: OStr sid str' :: s') ->
    forall str' s', can_run code size v2 I_GLOAD -> stack v2 = OStr sid str' :: s' ->
    vm_step flist powf code size v2 = Ok (next v2 1 (ONil :: s')).
Proof.
  intros X flist powf size code n v1 v2 sid H0 Hn HF HM str' s' HC2 HS2.
  assert (HX : stored_globals (v_gsyms v2) /\ global v2 sid = ONil).
  { clear HC2 HS2. revert v2 Hn. induction n as [|n IH]; intros v2 Hn.
    - cbn [vm_steps] in Hn. inversion Hn; subst v2. unfold global. rewrite H0. cbn [vm_new v_gsyms]. split; [exists []; reflexivity|].
      unfold gsym_get. rewrite (get_new _ _ _ good_u) by lia. reflexivity.
    - rewrite steps_snoc in Hn. destruct (vm_steps flist powf code size n v1) as [w| | |] eqn:Ew; cbn [bind] in Hn; try discriminate.
      destruct (IH (fun m w' Hm => HM m w' ltac:(lia)) w eq_refl) as [B1 B2].
      destruct (step_global flist powf code size w v2 sid B1 Hn HF) as [C1 C2]; [intro Ha; exact (HM n w ltac:(lia) Ew Ha)|].
      split; auto. congruence. }
  destruct HX as [_ HX]. rewrite (gload_step flist powf code size v2 sid str' s' HC2 HS2), HX. reflexivity.
Qed.
Print Assumptions C42_global_never_stored_is_nil.

(** Local variables: a load gives the last value stored in the same activation of the function,
    across any number of steps, including calls, recursive ones too, in which this activation
    does not store the variable again and does not drop it at the end of its block. *)
Theorem C42_local_holds_last_store_partial :
  forall X flist powf size code (v0 : vm X) i x s,
    Forall c_function_ok flist -> (forall a, 0 <= code a < 256) ->
    can_run code size v0 I_LSTORE -> instr_arg code v0 = Z.of_nat i -> stack v0 = x :: s -> v_lsymts v0 <> [] ->
    exists v1, vm_step flist powf code size v0 = Ok v1 /\ v_state v1 = S_READY /\ stack v1 = s /\ fun_depth v1 = fun_depth v0 /\
      forall n v2, vm_steps flist powf code size n v1 = Ok v2 -> v_state v2 = S_READY ->
        (forall m w, (m <= n)%nat -> vm_steps flist powf code size m v1 = Ok w -> (fun_depth v0 <= fun_depth w)%nat) ->
        (forall m w, (m < n)%nat -> vm_steps flist powf code size m v1 = Ok w -> fun_depth w = fun_depth v0 ->
           (about_to code w I_LSTORE -> instr_arg code w <> Z.of_nat i) /\
           (about_to code w I_LREMOVE -> forall ls L, v_lsymts w = ls :: L -> instr_arg code w + Z.of_nat i < zlen (ls_syms ls))) ->
        fun_depth v2 = fun_depth v0 -> can_run code size v2 I_LLOAD -> instr_arg code v2 = Z.of_nat i ->
        vm_step flist powf code size v2 = Ok (next v2 5 (x :: stack v2)).
Proof.
  intros X flist powf size code v0 i x s HC HB HR0 HI HS HL.
  destruct (v_lsymts v0) as [|ls L] eqn:EL; [congruence|]. clear HL.
  assert (HN0 : v_stacks v0 <> []) by (intro E; unfold stack in HS; rewrite E in HS; discriminate).
  assert (E : vm_step flist powf code size v0 = Ok (set_lsymts (set_stack (set_pc (bump v0) (v_pc v0 + 5)) s)
      (mkLs (slot_set (ls_syms ls) i x) (ls_swarm ls) :: L))).
  { rewrite (step_at flist powf code size v0 _ (proj1 HR0)). cbn [exec]. rewrite (run_inc _ _ _ _ _ HR0), (run_arg _ _ _ I_LSTORE _ eq_refl HR0), HI.
    unfold vm_lstore, stack_assert. change (stack (set_pc (bump v0) (v_pc v0 + 5))) with (stack v0). rewrite HS.
    replace (zlen (x :: s) - 1 <? 0) with false by (unfold zlen; cbn [length]; lia). cbn [v_lsymts set_pc bump set_oldpc]. rewrite EL, Nat2Z.id. reflexivity. }
  eexists. split; [exact E|]. split; [exact (proj1 (proj1 HR0))|]. split; [reflexivity|]. split; [unfold fun_depth; cbn; rewrite EL; reflexivity|].
  set (v1 := set_lsymts _ _) in *. intros n v2 Hn HR2 HD HM HD2 HR3 HI2.
  assert (HX : nonempty v2 /\ slot_holds v2 (length L) i x).
  { clear HD2 HR3 HI2. revert v2 Hn HR2. induction n as [|n IH]; intros v2 Hn HR2.
    - cbn [vm_steps] in Hn. inversion Hn; subst v2. split; [unfold nonempty, v1; cbn; discriminate|].
      eexists [], _, L. split; [reflexivity|]. split; [reflexivity|]. apply slot_set_same.
    - pose proof Hn as Hn'. rewrite steps_snoc in Hn. destruct (vm_steps flist powf code size n v1) as [w| | |] eqn:Ew; cbn [bind] in Hn; try discriminate.
      assert (HRw : v_state w = S_READY) by (apply (step_ready flist powf code size w v2 Hn HR2)).
      destruct (IH (fun m w' Hm => HD m w' ltac:(lia)) (fun m w' Hm => HM m w' ltac:(lia)) w eq_refl HRw) as [B1 B2].
      assert (HDe : S (length L) = fun_depth v0) by (unfold fun_depth; rewrite EL; reflexivity).
      apply (step_slot flist powf code size HC HB w v2 (length L) i x B1 B2 Hn HR2).
      + pose proof (HD (S n) v2 ltac:(lia) Hn'). lia.
      + intros Ha Hd. apply (HM n w ltac:(lia) Ew ltac:(lia)). exact Ha.
      + intros Ha Hd. apply (HM n w ltac:(lia) Ew ltac:(lia)). exact Ha. }
  destruct HX as [_ (pre & ls2 & rest & EL2 & Elen & Ei)].
  assert (pre = []) as ->.
  { unfold fun_depth in HD2. rewrite EL, EL2, app_length in HD2. cbn [length] in HD2. destruct pre; auto. cbn [length] in HD2. lia. }
  cbn [app] in EL2. rewrite (step_at flist powf code size v2 _ (proj1 HR3)). cbn [exec].
  rewrite (run_inc _ _ _ _ _ HR3), (run_arg _ _ _ I_LLOAD _ eq_refl HR3), HI2. unfold vm_lload. cbn [v_lsymts set_pc bump set_oldpc]. rewrite EL2.
  assert (Hlt : (i < length (ls_syms ls2))%nat) by (apply nth_error_Some; congruence).
  replace (zlen (ls_syms ls2) - 1 <? Z.of_nat i) with false by (unfold zlen; lia). rewrite Nat2Z.id, Ei. reflexivity.
Qed.
Print Assumptions C42_local_holds_last_store_partial.

(** Storing a variable beyond the end of the frame leaves the slots between without a value:
    reading one is undefined. *)
Theorem C42_skipped_local_refuted :
  exists code (v : vm unit), v_state v = S_READY /\ fun_depth v = 1%nat /\
    (exists v2, vm_steps [] no_pow code 20 2 v = Ok v2 /\ about_to code v2 I_LLOAD) /\ vm_steps [] no_pow code 20 3 v = UB.
Proof.
  exists (mem_of [36; 7; 0; 0; 0; 42; 3; 0; 0; 0; 41; 2; 0; 0; 0; 0; 0; 0; 0; 0]), (set_lsymts vm0 [mkLs [Some ONil] false]).
  split; [reflexivity|]. split; [reflexivity|]. split; [eexists; split; [vm_compute; reflexivity|split; reflexivity]|vm_compute; reflexivity].
Qed.
Print Assumptions C42_skipped_local_refuted.

(** pushs 0; pushi 7; gstore; pushs 0; gload in a VM that knows the string 0. *)
Definition vm_named : vm unit :=
  set_str vm0 (match sm_register 3 sm_new [120] true with Ok (sm, _) => sm | _ => sm_new end).
Example C42_nontrivial :
  let code := mem_of [37; 0; 0; 0; 0; 36; 7; 0; 0; 0; 29; 37; 0; 0; 0; 0; 28; 0] in
  (match vm_steps [] no_pow code 18 2 vm_named with
   | Ok v0 => can_run code 18 v0 I_GSTORE /\ stack v0 = [OInt 7; OStr 0 [120]]
   | _ => False end) /\
  (match vm_steps [] no_pow code 18 4 vm_named with
   | Ok v2 => can_run code 18 v2 I_GLOAD /\ stack v2 = [OStr 0 [120]]
   | _ => False end) /\
  (match vm_steps [] no_pow code 18 5 vm_named with Ok v => stack v = [OInt 7] | _ => False end).
Proof. vm_compute. repeat split; discriminate. Qed.
(** pushi 7; lstore 1; pushnil; pop; lload 1, in a function. *)
Example C42_nontrivial_local :
  let code := mem_of [36; 7; 0; 0; 0; 42; 1; 0; 0; 0; 2; 4; 41; 1; 0; 0; 0; 0] in
  let v := set_lsymts vm0 [mkLs [Some ONil] false] in
  (match vm_steps [] no_pow code 18 1 v with Ok v0 => can_run code 18 v0 I_LSTORE /\ stack v0 = [OInt 7] /\ instr_arg code v0 = 1 | _ => False end) /\
  (match vm_steps [] no_pow code 18 4 v with Ok v2 => can_run code 18 v2 I_LLOAD /\ fun_depth v2 = 1%nat | _ => False end) /\
  (match vm_steps [] no_pow code 18 5 v with Ok v => stack v = [OInt 7] | _ => False end).
Proof. vm_compute. repeat split; discriminate. Qed.

(** ** C41: tables *)

Lemma history_app t ops1 ops2 : tab_history t (ops1 ++ ops2) = (t1 <- tab_history t ops1 ;; tab_history t1 ops2).
Proof.
  revert t. induction ops1 as [|o ops1 IH]; intro t; cbn [app tab_history bind]; [reflexivity|].
  destruct o as [k x|k]; [destruct (tab_set t k x)|destruct (tab_remove t k)]; cbn [bind]; auto.
Qed.
Lemma built_twf fl sidof t : built (key_class fl sidof) t -> twf table_hash (key_class fl sidof) t.
Proof.
  intros (ops & HF & H). pose proof (good_class fl sidof) as G.
  assert (HG : forall ops t0, Forall (fun o => key_class fl sidof (tab_op_key o) = true) ops -> twf table_hash (key_class fl sidof) t0 ->
    tab_history t0 ops = Ok t -> twf table_hash (key_class fl sidof) t).
  { clear ops HF H. induction ops as [|o ops IH]; intros t0 HF HT H; cbn [tab_history] in H; [inversion H; subst; auto|].
    inversion HF as [|? ? Ho HF']; subst. destruct o as [k x|k]; cbn [tab_op_key] in Ho.
    - destruct (tab_set_get _ _ _ G t0 k x k HT Ho Ho) as (t' & E & HT' & _). unfold tab_set in H. rewrite E in H. cbn [bind] in H. eauto.
    - destruct (tab_remove_get _ _ _ G t0 k k HT Ho Ho) as (t' & E & HT' & _). unfold tab_remove in H. rewrite E in H. cbn [bind] in H. eauto. }
  apply (HG ops tab_new); auto. apply (twf_new _ _ _ G).
Qed.

Lemma step_table X flist powf size code (v v' : vm X) a :
  0 <= a -> (Z.to_nat a < length (v_heap v))%nat -> vm_step flist powf code size v = Ok v' ->
  (forall f w w', In f flist -> f w = Ok w' -> (Z.to_nat a < length (v_heap w))%nat -> nth_error (v_heap w') (Z.to_nat a) = nth_error (v_heap w) (Z.to_nat a)) ->
  (about_to code v I_TPUT -> forall x k s, stack v <> x :: k :: OTab a :: s) ->
  nth_error (v_heap v') (Z.to_nat a) = nth_error (v_heap v) (Z.to_nat a).
Proof.
  intros Ha HL H HF HN. apply step_inv in H as [[_ ->]|[(_ & _ & ->)|(o & HR & HO & HX)]]; [auto|auto|].
  apply exec_heap in HX as [E|[[-> E]|[(-> & x & k & b & s & t' & HS & Hb & E)|(f & v5 & v6 & HI & E5 & E6 & E)]]].
  - unfold sameh in E. rewrite E. auto.
  - rewrite E. apply nth_error_app1. auto.
  - rewrite E. apply nth_error_upd_other. intro Eb. assert (b = a) by lia. subst b. refine (HN _ _ _ _ HS). split; auto.
    destruct (Z.lt_ge_cases (code (v_pc v)) 0); [|apply (opcode_num code); auto].
    unfold opcode_of in HO. replace (Z.to_nat (code (v_pc v))) with O in HO by lia. discriminate.
  - unfold sameh in E. rewrite E, (HF f v5 v6 HI E6), E5; auto. rewrite E5. auto.
Qed.

(** After tput(t, k, x), reading through any alias of the table, after any number of steps that
    do not write this table, gives x for the keys equal to k (nil: nothing; a closure is stored
    as a method of the table) and for all other keys what the table held before.  No
    other table is affected.  (Keys: of the classes of C18.) *)
Theorem C41_read_sees_write_partial :
  forall X flist powf size code fl sidof (v0 : vm X) x k a s t,
    can_run code size v0 I_TPUT -> stack v0 = x :: k :: OTab a :: s ->
    0 <= a -> nth_error (v_heap v0) (Z.to_nat a) = Some t -> built (key_class fl sidof) t -> key_class fl sidof k = true ->
    exists v1 t1, vm_step flist powf code size v0 = Ok v1 /\ v_state v1 = S_READY /\ stack v1 = s /\
      (forall b, b <> Z.to_nat a -> nth_error (v_heap v1) b = nth_error (v_heap v0) b) /\
      nth_error (v_heap v1) (Z.to_nat a) = Some t1 /\ built (key_class fl sidof) t1 /\
      v_gsyms v1 = v_gsyms v0 /\ v_lsymts v1 = v_lsymts v0 /\
      forall n v2, vm_steps flist powf code size n v1 = Ok v2 ->
        (forall f w w', In f flist -> f w = Ok w' -> (Z.to_nat a < length (v_heap w))%nat ->
           nth_error (v_heap w') (Z.to_nat a) = nth_error (v_heap w) (Z.to_nat a)) ->
        (forall m w, (m < n)%nat -> vm_steps flist powf code size m v1 = Ok w -> about_to code w I_TPUT ->
           forall y k' s', stack w <> y :: k' :: OTab a :: s') ->
        forall k' s', can_run code size v2 I_TGET -> stack v2 = k' :: OTab a :: s' -> key_class fl sidof k' = true ->
        exists old, tab_get t k' = Ok old /\
          vm_step flist powf code size v2 =
          Ok (next v2 1 ((if same_key k k' then as_stored a x else match old with Some o => o | None => ONil end) :: s')).
Proof.
  intros X flist powf size code fl sidof v0 x k a s t HC HS Ha Ht HBt Hk.
  pose proof (good_class fl sidof) as G. pose proof (built_twf _ _ _ HBt) as HT.
  assert (Hkey : forall k, key_class fl sidof k = true -> is_key k = true) by (intros [] H; auto; discriminate).
  assert (HLa : (Z.to_nat a < length (v_heap v0))%nat) by (apply nth_error_Some; congruence).
  assert (HW : exists t1, (match x with ONil => tab_remove t k | _ => tab_set t k (bind_self (OTab a) x) end) = Ok t1 /\
    built (key_class fl sidof) t1 /\ twf table_hash (key_class fl sidof) t1 /\
    forall k', key_class fl sidof k' = true -> exists old, tab_get t k' = Ok old /\
      exists r, tab_get t1 k' = Ok r /\ (match r with Some o => o | None => ONil end) =
        (if same_key k k' then as_stored a x else match old with Some o => o | None => ONil end)).
  { destruct HBt as (ops & HF & HH). destruct x.
    1: destruct (tab_remove_get _ _ _ G t k k HT Hk Hk) as (t1 & E & HT1 & _); exists t1; split; [exact E|]; split;
       [exists (ops ++ [TabDel k]); split; [apply Forall_app; split; auto|rewrite history_app, HH; cbn [bind tab_history]; unfold tab_remove; rewrite E; reflexivity]|];
       split; [exact HT1|]; intros k' Hk'; destruct (tab_remove_get _ _ _ G t k k' HT Hk Hk') as (t1' & E' & _ & r & Er & Er');
       rewrite E in E'; inversion E'; subst t1'; exists r; split; [exact Er|]; eexists; (split; [exact Er'|]); destruct (same_key k k'); reflexivity.
    all: match goal with |- context [tab_set ?t0 ?k0 ?y] => 
       destruct (tab_set_get _ _ _ G t0 k0 y k HT Hk Hk) as (t1 & E & HT1 & _); exists t1; split; [exact E|]; split;
       [exists (ops ++ [TabSet k0 y]); split; [apply Forall_app; split; auto|rewrite history_app, HH; cbn [bind tab_history]; unfold tab_set; rewrite E; reflexivity]|];
       split; [exact HT1|]; intros k' Hk'; destruct (tab_set_get _ _ _ G t0 k0 y k' HT Hk Hk') as (t1' & E' & _ & r & Er & Er');
       rewrite E in E'; inversion E'; subst t1'; exists r; split; [exact Er|]; eexists; (split; [exact Er'|]); destruct (same_key k k'); reflexivity end. }
  destruct HW as (t1 & E1 & HB1 & HT1 & HR1).
  assert (HST : vm_step flist powf code size v0 = Ok (bump (tab_put (set_stack v0 s) a t1))).
  { rewrite (step_at flist powf code size v0 _ (proj1 HC)). cbn [exec]. unfold vm_tput, stack_assert, type_assert, stack_at. rewrite HS.
    replace (zlen (x :: k :: OTab a :: s) - 3 <? 0) with false by (unfold zlen; cbn [length]; lia). change (1 <=? 3) with true.
    change (nth_error (x :: k :: OTab a :: s) (Z.to_nat (3 - 1))) with (Some (OTab a)). cbn [bind otype]. rewrite Z.eqb_refl, (Hkey k Hk).
    unfold tab_at. replace (0 <=? a) with true by lia. cbn [v_heap set_stack set_stacks]. rewrite Ht. cbn [bind]. rewrite E1. cbn [bind]. unfold if_ready. cbn [bind].
    change (v_state (tab_put (set_stack v0 s) a t1)) with (v_state v0). rewrite (proj1 (proj1 HC)). cbn [is_ready].
    unfold inc_pc. change (v_pc (tab_put (set_stack v0 s) a t1)) with (v_pc v0). cbn [v_pc set_pc set_oldpc].
    destruct HC as (_ & H0 & H1). unfold instr_len in H1. cbn in H1. replace (pc_ok size (v_pc v0 + 1)) with true by (unfold pc_ok; lia). reflexivity. }
  eexists _, t1. split; [exact HST|]. split; [exact (proj1 (proj1 HC))|]. split; [reflexivity|]. cbn [v_heap bump set_pc set_oldpc tab_put set_heap set_stack set_stacks].
  split; [intros b Hb; apply nth_error_upd_other; auto|]. split; [apply nth_error_upd_same; auto|]. split; [exact HB1|]. split; [reflexivity|]. split; [reflexivity|].
  set (v1 := bump (tab_put (set_stack v0 s) a t1)). intros n v2 Hn HF HM k' s' HC2 HS2 Hk'.
  assert (HX : nth_error (v_heap v2) (Z.to_nat a) = Some t1).
  { clear HC2 HS2. revert v2 Hn. induction n as [|n IH]; intros v2 Hn.
    - cbn [vm_steps] in Hn. inversion Hn; subst v2. cbn. apply nth_error_upd_same. auto.
    - rewrite steps_snoc in Hn. destruct (vm_steps flist powf code size n v1) as [w| | |] eqn:Ew; cbn [bind] in Hn; try discriminate.
      pose proof (IH (fun m w' Hm => HM m w' ltac:(lia)) w eq_refl) as B1.
      rewrite (step_table X flist powf size code w v2 a Ha); auto.
      + apply nth_error_Some. congruence.
      + intro HA. exact (HM n w ltac:(lia) Ew HA). }
  destruct (HR1 k' Hk') as (old & Eo & r & Er & EV). exists old. split; [exact Eo|]. rewrite <- EV.
  rewrite (step_at flist powf code size v2 _ (proj1 HC2)). cbn [exec]. unfold vm_tget, stack_assert, type_assert, stack_at. rewrite HS2.
  replace (zlen (k' :: OTab a :: s') - 2 <? 0) with false by (unfold zlen; cbn [length]; lia).
  change (1 <=? 2) with true. change (nth_error (k' :: OTab a :: s') (Z.to_nat (2 - 1))) with (Some (OTab a)). cbn [bind otype]. rewrite Z.eqb_refl, (Hkey k' Hk').
  unfold tab_at. replace (0 <=? a) with true by lia. cbn [v_heap set_stack set_stacks]. rewrite HX. cbn [bind]. rewrite Er. cbn [bind]. unfold if_ready. cbn [bind].
  destruct HC2 as ([HR2 _] & H0 & H1). unfold instr_len in H1. cbn in H1. cbn [v_state push set_stack set_stacks]. rewrite HR2. cbn [is_ready].
  unfold inc_pc. cbn [v_pc set_pc set_oldpc push set_stack set_stacks].
  replace (pc_ok size (v_pc v2 + 1)) with true by (unfold pc_ok; lia). reflexivity.
Qed.
Print Assumptions C41_read_sees_write_partial.

(** pusht; dup; pushi 1; pushi 5; tput; pushi 1; tget: the second reference reads what was
    written through the first. *)
Example C41_nontrivial :
  let code := mem_of [30; 3; 36; 1; 0; 0; 0; 36; 5; 0; 0; 0; 31; 36; 1; 0; 0; 0; 32; 0] in
  (match vm_steps [] no_pow code 20 4 vm0 with
   | Ok v0 => can_run code 20 v0 I_TPUT /\ stack v0 = [OInt 5; OInt 1; OTab 0; OTab 0] /\ nth_error (v_heap v0) 0 = Some tab_new
   | _ => False end) /\
  built (key_class false zlen) tab_new /\ key_class false zlen (OInt 1) = true /\
  (match vm_steps [] no_pow code 20 6 vm0 with Ok v2 => can_run code 20 v2 I_TGET /\ stack v2 = [OInt 1; OTab 0] | _ => False end) /\
  (match vm_steps [] no_pow code 20 7 vm0 with Ok v => stack v = [OInt 5] | _ => False end).
Proof.
  cbv zeta. split; [vm_compute; repeat split; discriminate|]. split; [exists []; split; [constructor|reflexivity]|].
  split; [reflexivity|]. split; [vm_compute; repeat split; discriminate|vm_compute; reflexivity].
Qed.
