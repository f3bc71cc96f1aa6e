(** Theorems about calls and returns: C40, C63, C64. *)
From Verif Require Import Base ListLemmas Float Dict PDict Strman Obj ObjSpec Instr Vm VmSpec VmProofs VmFrames PropsVm.

Lemma opcode_about X code (v : vm X) o : v_state v = S_READY -> opcode_of (code (v_pc v)) = Some o -> o <> I_NOP -> about_to code v o.
Proof.
  intros HR H HN. split; auto. destruct (Z.lt_ge_cases (code (v_pc v)) 0) as [Hn|Hp].
  - unfold opcode_of in H. replace (Z.to_nat (code (v_pc v))) with 0%nat in H by lia. cbn in H. congruence.
  - apply opcode_num in H; auto.
Qed.

Lemma call_native X flist (v v' : vm X) w args ref act self s :
  vm_call flist v w = Ok v' -> v_state v' = S_READY ->
  stack v = OInt (zlen args) :: rev args ++ OClos true ref act :: self :: s ->
  v' = set_pc (set_oldpc (set_stacks (set_lsymts v (mkLs (map Some (act ++ args)) w :: v_lsymts v))
         ([] :: (OInt (v_pc v) :: s) :: tl (v_stacks v))) (v_pc v)) ref.
Proof.
  intros H HR HS. destruct (call_frames flist (fun _ => 0) v w v' H HR) as (argn & s0 & native & ref' & act' & ES & _ & _ & _ & EN & HV).
  rewrite HS in ES. inversion ES. subst argn s0. clear ES.
  assert (HL : Z.to_nat (zlen args) = length (rev args)) by (unfold zlen; rewrite rev_length; lia).
  rewrite HL in *. rewrite nth_error_app2, Nat.sub_diag in EN by lia. cbn in EN. inversion EN. subst.
  cbv zeta in HV. rewrite HV. f_equal. f_equal. f_equal.
  - f_equal. f_equal. rewrite firstn_app, Nat.sub_diag, firstn_all. cbn [firstn]. rewrite app_nil_r, map_app. f_equal. f_equal.
    rewrite map_rev, rev_involutive. reflexivity.
  - f_equal. f_equal. f_equal. rewrite skipn_app, skipn_all2 by lia.
    replace (S (S (length (rev args))) - length (rev args))%nat with 2%nat by lia. reflexivity.
Qed.

(** A call of a Buzz closure enters the function with the arguments as local symbols.  Whatever
    the function does (including further calls, of Buzz functions or of C functions that end
    their frame properly), when the call depth first comes back to that of the caller, closure,
    self object and arguments have been replaced by exactly one value, the returned one; the
    rest of the operand stack, all frames of the caller and its local symbols are as
    before, and execution goes on after the call. *)
Theorem C40_call_return_balanced :
  forall X flist powf size code (v0 v1 : vm X) o args ref act self s,
    Forall c_function_ok flist ->
    (o = I_CALLC \/ o = I_CALLS) -> about_to code v0 o ->
    stack v0 = OInt (zlen args) :: rev args ++ OClos true ref act :: self :: s ->
    vm_step flist powf code size v0 = Ok v1 -> v_state v1 = S_READY ->
    entered v1 ref (act ++ args) /\ call_depth v1 = S (call_depth v0) /\
    forall n v', vm_steps flist powf code size n v1 = Ok v' -> v_state v' = S_READY ->
      (forall m w, (m < n)%nat -> vm_steps flist powf code size m v1 = Ok w -> (call_depth v0 < call_depth w)%nat) ->
      (call_depth v' <= call_depth v0)%nat ->
      exists r, v_stacks v' = (r :: s) :: tl (v_stacks v0) /\ v_lsymts v' = v_lsymts v0 /\ v_pc v' = v_pc v0 + 1 /\
        returned flist powf code size v1 v' r.
Proof.
  intros X flist powf size code v0 v1 o args ref act self s HC HO HA HS H HR.
  assert (HV : exists w, v1 = set_pc (set_oldpc (set_stacks (set_lsymts (bump v0) (mkLs (map Some (act ++ args)) w :: v_lsymts v0))
         ([] :: (OInt (v_pc v0 + 1) :: s) :: tl (v_stacks v0))) (v_pc v0 + 1)) ref).
  { rewrite (step_at flist powf code size v0 o HA) in H. destruct HO as [-> | ->]; cbn [exec] in H;
      apply inc_ready in H; auto; apply if_ready_ready in H; auto; destruct H as (v2 & H & HR2 & HA2); inversion HA2; subst v1;
      (rewrite assert_ready in * by exact HR); [exists false|exists true];
      exact (call_native X flist (bump v0) v2 _ args ref act self s H HR HS). }
  destruct HV as (w & HV). assert (HN : v_stacks v0 <> []) by (intro E; unfold stack in HS; rewrite E in HS; discriminate).
  assert (HD : call_depth v0 = S (length (tl (v_stacks v0)))) by (unfold call_depth; destruct (v_stacks v0); [congruence|reflexivity]).
  split; [|split].
  - subst v1. split; [reflexivity|]. split; [reflexivity|]. do 2 eexists. split; reflexivity.
  - subst v1. unfold call_depth at 1. cbn. rewrite HD. reflexivity.
  - intros n v' Hn HR' Hm Hd.
    assert (HB : below ((OInt (v_pc v0 + 1) :: s) :: tl (v_stacks v0)) (v_lsymts v0) v1).
    { exists [[]], [mkLs (map Some (act ++ args)) w]. subst v1. repeat split. discriminate. }
    destruct (below_steps flist powf code size HC _ _ _ _ n v1 v' HB Hn HR') as [HB'|(r & vl & o' & Hn0 & Hl & Hlr & Ho & E1 & E2 & E3 & HX)].
    { intros m w' Hlt Hw. specialize (Hm m w' Hlt Hw). rewrite HD in Hm. exact Hm. }
    + exfalso. destruct HB' as (pre & preL & ES & _ & _ & Hpre). unfold call_depth in Hd at 1. rewrite ES, app_length in Hd. cbn [length] in Hd.
      rewrite HD in Hd. destruct pre; [congruence|]. cbn [length] in Hd. lia.
    + assert (HD1 : call_depth v1 = S (call_depth v0)) by (subst v1; unfold call_depth at 1; cbn; rewrite HD; reflexivity).
      exists r. repeat split; auto. exists (n - 1)%nat, vl. split; [auto|]. split; [|split; [|split]].
      * replace n with (S (n - 1)) in Hn by lia. rewrite steps_snoc, Hl in Hn. exact Hn.
      * destruct HX as [[-> ->]|[-> Hr]]; [left|right]; split; auto; apply opcode_about; auto; discriminate.
      * intros m w' Hlt Hw. rewrite HD1. apply (Hm m w'); [lia|exact Hw].
      * rewrite HD1, HD. unfold call_depth. rewrite E1. reflexivity.
Qed.
Print Assumptions C40_call_return_balanced.

(** Calls of registered C functions. *)
Theorem C40_c_call_balanced :
  forall X flist powf size code (v0 v' : vm X) o args ref act self s,
    Forall c_function_ok flist ->
    (o = I_CALLC \/ o = I_CALLS) -> about_to code v0 o ->
    stack v0 = OInt (zlen args) :: rev args ++ OClos false ref act :: self :: s ->
    vm_step flist powf code size v0 = Ok v' -> v_state v' = S_READY ->
    exists f v5 r, nth_error flist (Z.to_nat ref) = Some f /\ f v5 = Ok v' /\ entered v5 (v_pc v0 + 1) (act ++ args) /\
      v_stacks v' = (r :: s) :: tl (v_stacks v0) /\ v_lsymts v' = v_lsymts v0 /\ v_pc v' = v_pc v0 + 1.
Proof.
  intros X flist powf size code v0 v1 o args ref act self s HC HO HA HS H HR.
  assert (HV : exists w, vm_call flist (bump v0) w = Ok v1).
  { rewrite (step_at flist powf code size v0 o HA) in H. destruct HO as [-> | ->]; cbn [exec] in H;
      apply inc_ready in H; auto; apply if_ready_ready in H; auto; destruct H as (v2 & H & HR2 & HA2); inversion HA2; subst v1;
      (rewrite assert_ready in * by exact HR); eauto. }
  destruct HV as (w & HV).
  destruct (call_frames flist (fun _ => 0) _ w v1 HV HR) as (argn & s0 & native & ref' & act' & ES & _ & _ & _ & EN & HF).
  change (stack (bump v0)) with (stack v0) in ES. rewrite HS in ES. inversion ES. subst argn s0. clear ES.
  assert (HL : Z.to_nat (zlen args) = length (rev args)) by (unfold zlen; rewrite rev_length; lia).
  rewrite HL in *. rewrite nth_error_app2, Nat.sub_diag in EN by lia. cbn in EN. inversion EN. subst.
  cbv zeta in HF. destruct HF as (f & Hf & Hv).
  rewrite skipn_app, skipn_all2 in Hv by lia. replace (S (S (length (rev args))) - length (rev args))%nat with 2%nat in Hv by lia. cbn [skipn app] in Hv.
  pose proof (proj1 (Forall_forall _ _) HC f (nth_error_In _ _ Hf)) as HCf.
  match type of Hv with f ?x = _ => set (v5 := x) in * end.
  destruct (HCf v5 v1 (v_pc v0 + 1) s (tl (v_stacks v0)) _ (v_lsymts v0) eq_refl eq_refl Hv HR) as (r & E1 & E2 & E3).
  do 3 eexists. split; [exact Hf|]. split; [exact Hv|]. split; [|split; [exact E1|split; [exact E2|exact E3]]].
  split; [reflexivity|]. split; [reflexivity|]. do 2 eexists. split; [reflexivity|]. cbn [ls_syms].
  rewrite firstn_app, Nat.sub_diag, firstn_all. cbn [firstn]. rewrite app_nil_r, map_app. f_equal. rewrite map_rev, rev_involutive. reflexivity.
Qed.
Print Assumptions C40_c_call_balanced.

(** A function of one argument that returns twice its argument, called with 21 (function at 30;
    a caller with 99 on its stack). *)
Definition twice_code : Z -> Z :=
  mem_of ([36; 99; 0; 0; 0; 2; 38; 30; 0; 0; 0; 36; 21; 0; 0; 0; 36; 1; 0; 0; 0; 33; 1; 0; 0; 0; 0; 0; 0; 0] ++
          [41; 1; 0; 0; 0; 41; 1; 0; 0; 0; 7; 6; 0]).
Example C40_nontrivial :
  match vm_steps [] no_pow twice_code 43 5 vm0 with
  | Ok v0 =>
      about_to twice_code v0 I_CALLC /\ stack v0 = OInt (zlen [OInt 21]) :: rev [OInt 21] ++ OClos true 30 [ONil] :: ONil :: [OInt 99] /\
      match vm_step [] no_pow twice_code 43 v0 with
      | Ok v1 => v_state v1 = S_READY /\
          match vm_steps [] no_pow twice_code 43 4 v1 with
          | Ok v' => v_state v' = S_READY /\ call_depth v' = call_depth v0 /\ stack v' = [OInt 42; OInt 99]
          | _ => False
          end
      | _ => False
      end
  | _ => False
  end.
Proof. vm_compute. repeat split. Qed.
(** A C function of the shape required: it returns nil. *)
Example C40_c_function : @c_function_ok unit vm_ret0.
Proof.
  intros v v' ra s rest ls L HS HL H HR. destruct (ret0_inv v v' H HR) as (top & ra' & s' & rest' & ls' & E1 & E2 & E3 & E4).
  rewrite HS in E1. inversion E1; subst. rewrite HL in E2. inversion E2. eauto.
Qed.

(** ** C64: buzzvm_closure_call *)

Section CC.
Context {X : Type}.
Variable flist : list (vm X -> res (vm X)).
Variable powf : libm.
Variable code : Z -> Z.
Variable size : Z.
Hypothesis HC : Forall c_function_ok flist.

Lemma until_balanced ra s rest L : forall fuel (v v' : vm X),
  below ((OInt ra :: s) :: rest) L v -> v_state v = S_READY ->
  step_until flist powf code size fuel (zlen ((OInt ra :: s) :: rest)) v = Ok v' -> v_state v' = S_READY ->
  exists r, v_stacks v' = (r :: s) :: rest /\ v_lsymts v' = L /\ v_pc v' = ra /\
    exists n vl, vm_steps flist powf code size n v = Ok vl /\ vm_step flist powf code size vl = Ok v' /\
      ((about_to code vl I_RET0 /\ r = ONil) \/ (about_to code vl I_RET1 /\ hd_error (stack vl) = Some r)) /\
      (forall m w, (m <= n)%nat -> vm_steps flist powf code size m v = Ok w -> (S (S (length rest)) <= call_depth w)%nat).
Proof.
  assert (HB0 : forall v : vm X, below ((OInt ra :: s) :: rest) L v -> (S (S (length rest)) <= call_depth v)%nat).
  { intros v (pre & preL & S1 & _ & _ & Hp). unfold call_depth. rewrite S1, app_length. destruct pre; [congruence|]. cbn [length]. lia. }
  induction fuel as [|fuel IH]; intros v v' HB HRv H HR; cbn [step_until] in H; [discriminate|].
  destruct (vm_step flist powf code size v) as [v1| | |] eqn:E; cbn [bind] in H; try discriminate.
  destruct (v_state v1) eqn:ES; cbn [is_ready negb] in H; try (inversion H; subst; congruence).
  destruct (step_ready flist powf code size v v1 E ES) as (_ & o & Ho & He).
  destruct (below_step flist powf code size HC ra s rest L o v v1 HB He ES) as [HB1|(top & r & S0 & S1 & L1 & P1 & HX)].
  - destruct (zlen ((OInt ra :: s) :: rest) <? zlen (v_stacks v1)) eqn:EL.
    + destruct (IH v1 v' HB1 ES H HR) as (r & A1 & A2 & A3 & n & vl & B1 & B2 & B3 & B4).
      exists r. repeat split; auto. exists (S n), vl. split; [cbn [vm_steps]; rewrite E; cbn [bind]; exact B1|]. split; [auto|]. split; [auto|].
      intros [|m] w Hm Hw. { inversion Hw; subst w. apply HB0. auto. } cbn [vm_steps] in Hw. rewrite E in Hw. cbn [bind] in Hw. apply (B4 m w); [lia|exact Hw].
    + exfalso. destruct HB1 as (pre & preL & S1 & _ & _ & Hp). rewrite S1 in EL. unfold zlen in EL. rewrite app_length in EL.
      destruct pre; [congruence|]. cbn [length] in EL. lia.
  - rewrite S1 in H. replace (zlen ((OInt ra :: s) :: rest) <? zlen ((r :: s) :: rest)) with false in H by (unfold zlen; cbn [length]; lia).
    inversion H; subst v'. exists r. repeat split; auto. exists O, v. split; [reflexivity|]. split; [exact E|].
    split.
    + destruct HX as [[-> ->]|[-> Hr]]; [left|right]; (split; [apply opcode_about; auto; discriminate|auto]). unfold stack. rewrite S0. exact Hr.
    + intros m w Hm Hw. replace m with O in Hw by lia. inversion Hw; subst w. apply HB0. auto.
Qed.
End CC.

(** Buzz closures: the function is entered with the arguments, and at its return closure and
    arguments are replaced by the returned value; nothing else on the stack, no frame
    and not the program counter has changed.  Tables, strings, globals and extensions are at the entry
    what they were at the call. *)
Theorem C64_closure_call_balanced_partial :
  forall X flist powf size code fuel (v v' : vm X) args ref act s,
    Forall c_function_ok flist -> v_state v = S_READY ->
    stack v = rev args ++ OClos true ref act :: s ->
    closure_call flist powf code size fuel v (zlen args) = Ok v' -> v_state v' = S_READY ->
    exists r v1, v_stacks v' = (r :: s) :: tl (v_stacks v) /\ v_lsymts v' = v_lsymts v /\ v_pc v' = v_pc v /\
      entered v1 ref (act ++ args) /\ v_heap v1 = v_heap v /\ v_str v1 = v_str v /\ v_gsyms v1 = v_gsyms v /\ v_ext v1 = v_ext v /\
      returned flist powf code size v1 v' r.
Proof.
  intros X flist powf size code fuel v v' args ref act s HC HRv HS H HR. unfold closure_call in H. rewrite HS in H.
  replace (zlen (rev args ++ OClos true ref act :: s) <? zlen args + 1) with false in H by (unfold zlen; rewrite app_length, rev_length; cbn [length]; lia).
  replace (Z.to_nat (zlen args + 1)) with (S (length (rev args))) in H by (unfold zlen; rewrite rev_length; lia).
  assert (F1 : firstn (S (length (rev args))) (rev args ++ OClos true ref act :: s) = rev args ++ [OClos true ref act]).
  { rewrite firstn_app. replace (S (length (rev args)) - length (rev args))%nat with 1%nat by lia. rewrite firstn_all2 by lia. reflexivity. }
  assert (F2 : skipn (S (length (rev args))) (rev args ++ OClos true ref act :: s) = s).
  { rewrite skipn_app. replace (S (length (rev args)) - length (rev args))%nat with 1%nat by lia. rewrite skipn_all2 by lia. reflexivity. }
  rewrite F1, F2, <- app_assoc in H. cbn [app] in H.
  set (v1 := push _ (OInt (zlen args))) in H.
  destruct (vm_call flist v1 false) as [v2| | |] eqn:E; cbn [bind] in H; try discriminate.
  assert (HN : v_stacks v <> []) by (intro E0; unfold stack in HS; rewrite E0 in HS; destruct (rev args); discriminate).
  destruct (v_state v2) eqn:ES.
  2: { assert (HV := call_native X flist v1 v2 false args ref act ONil s E ES eq_refl).
    change (v_pc v1) with (v_pc v) in HV. change (v_lsymts v1) with (v_lsymts v) in HV. change (tl (v_stacks v1)) with (tl (v_stacks v)) in HV.
    assert (HB : below ((OInt (v_pc v) :: s) :: tl (v_stacks v)) (v_lsymts v) v2).
    { exists [[]], [mkLs (map Some (act ++ args)) false]. subst v2. repeat split. discriminate. }
    replace (zlen (v_stacks v1)) with (zlen ((OInt (v_pc v) :: s) :: tl (v_stacks v))) in H by (unfold zlen; cbn; lia).
    destruct (until_balanced flist powf code size HC _ _ _ _ fuel v2 v' HB ES H HR) as (r & A1 & A2 & A3 & n & vl & B1 & B2 & B3 & B4).
    assert (HD2 : call_depth v2 = S (S (length (tl (v_stacks v))))) by (subst v2; reflexivity).
    exists r, v2. split; [auto|]. split; [auto|]. split; [auto|]. split. { subst v2. split; [reflexivity|]. split; [reflexivity|]. do 2 eexists; split; reflexivity. }
    do 4 (split; [subst v2; reflexivity|]). exists n, vl. rewrite HD2. split; [auto|]. split; [auto|]. split; [auto|]. split; [auto|].
    unfold call_depth. rewrite A1. reflexivity. }
  all: exfalso; destruct fuel as [|fuel]; cbn [step_until] in H; try discriminate;
    rewrite step_stopped in H by congruence; cbn [bind] in H; rewrite ES in H; cbn [is_ready negb] in H; inversion H; subst; congruence.
Qed.
Print Assumptions C64_closure_call_balanced_partial.
Example C64_nontrivial :
  let v := push (push (push vm0 (OInt 99)) (OClos true 30 [ONil])) (OInt 21) in
  stack v = rev [OInt 21] ++ OClos true 30 [ONil] :: [OInt 99] /\
  match closure_call [] no_pow twice_code 43 10 v (zlen [OInt 21]) with
  | Ok v' => v_state v' = S_READY /\ stack v' = [OInt 42; OInt 99]
  | _ => False
  end.
Proof. vm_compute. repeat split. Qed.

(** C closures: when the C function has returned, one instruction of the script at the program
    counter of the caller is executed in addition. *)
Theorem C64_c_closure_refuted :
  (forall X flist powf size code fuel (v : vm X) args ref act s f w,
     v_state v = S_READY -> 0 <= ref < zlen flist -> zlen args < 2 ^ 31 - 1 -> nth_error flist (Z.to_nat ref) = Some f ->
     stack v = rev args ++ OClos false ref act :: s ->
     (forall v5, f v5 = Ok w) -> call_depth w = call_depth v ->
     forall w', vm_step flist powf code size w = Ok w' -> (call_depth w' <= call_depth w)%nat ->
     closure_call flist powf code size (S fuel) v (zlen args) = Ok w') /\
  (* a C function that does nothing and returns nil, called between two instructions: the caller
     finds 7 on the stack, above the nil *)
  exists code v',
    closure_call [vm_ret0] no_pow code 10 5 (push vm0 (OClos false 0 [ONil])) 0 = Ok v' /\ v_state v' = S_READY /\
    v_pc v' = 5 /\ v_pc vm0 = 0 /\ stack v' = [OInt 7; ONil] /\ c_function_ok (@vm_ret0 unit).
Proof.
  split.
  - intros X flist powf size code fuel v args ref act s f w HR Hr Ha Hf HS HF HD w' HW HD'. unfold closure_call. rewrite HS.
    replace (zlen (rev args ++ OClos false ref act :: s) <? zlen args + 1) with false by (unfold zlen; rewrite app_length, rev_length; cbn [length]; lia).
    replace (Z.to_nat (zlen args + 1)) with (S (length (rev args))) by (unfold zlen; rewrite rev_length; lia).
    assert (F1 : firstn (S (length (rev args))) (rev args ++ OClos false ref act :: s) = rev args ++ [OClos false ref act]).
    { rewrite firstn_app. replace (S (length (rev args)) - length (rev args))%nat with 1%nat by lia. rewrite firstn_all2 by lia. reflexivity. }
    assert (F2 : skipn (S (length (rev args))) (rev args ++ OClos false ref act :: s) = s).
    { rewrite skipn_app. replace (S (length (rev args)) - length (rev args))%nat with 1%nat by lia. rewrite skipn_all2 by lia. reflexivity. }
    rewrite F1, F2, <- app_assoc. cbn [app]. set (v1 := push _ (OInt (zlen args))).
    set (s0 := rev args ++ OClos false ref act :: ONil :: s).
    assert (E : vm_call flist v1 false = Ok w).
    { unfold vm_call, stack_assert, type_assert, stack_at. change (stack v1) with (OInt (zlen args) :: s0).
      replace (zlen (OInt (zlen args) :: s0) - 1 <? 0) with false by (unfold zlen; cbn [length]; lia).
      change (1 <=? 1) with true. change (nth_error (OInt (zlen args) :: s0) (Z.to_nat (1 - 1))) with (Some (OInt (zlen args))). cbn [bind otype].
      rewrite Z.eqb_refl. replace (zlen args + 1 >=? 2 ^ 31) with false by (symmetry; rewrite Z.geb_leb; lia).
      change (stack (set_stack v1 s0)) with s0.
      replace (zlen s0 - (zlen args + 1) <? 0) with false by (unfold s0, zlen; rewrite app_length, rev_length; cbn [length]; lia).
      replace (1 <=? zlen args + 1) with true by (unfold zlen; lia). replace (zlen args + 1 - 1) with (zlen args) by lia.
      assert (EN : nth_error s0 (Z.to_nat (zlen args)) = Some (OClos false ref act)).
      { unfold s0. replace (Z.to_nat (zlen args)) with (length (rev args)) by (unfold zlen; rewrite rev_length; lia).
        rewrite nth_error_app2, Nat.sub_diag by lia. reflexivity. }
      rewrite EN. cbn [bind otype]. rewrite Z.eqb_refl. cbn [bind negb andb].
      replace (zlen flist <=? ref) with false by lia. replace (ref <? 0) with false by lia. rewrite Hf. apply HF. }
    rewrite E. cbn [bind step_until]. rewrite HW. cbn [bind]. destruct (is_ready (v_state w')); cbn [negb]; [|reflexivity].
    assert (HN : v_stacks v <> []) by (intro E0; unfold stack in HS; rewrite E0 in HS; destruct (rev args); discriminate).
    replace (zlen (v_stacks v1) <? zlen (v_stacks w')) with false; [reflexivity|].
    unfold call_depth in *. unfold zlen. cbn. destruct (v_stacks v); [congruence|]. cbn [length tl] in *. lia.
  - exists (mem_of [36; 7; 0; 0; 0; 0; 0; 0; 0; 0]). eexists. split; [vm_compute; reflexivity|]. repeat split. exact C40_c_function.
Qed.
Print Assumptions C64_c_closure_refuted.

(** ** C63: buzzvm_function_call *)

(** The name is a known string with the given id, bound to a value. *)
Definition global_is {X} (v : vm X) (name : str) (id : Z) (o : obj) : Prop :=
  s2i_get (str2id (v_str v)) name = Some id /\ 0 <= id < 65536 /\ sm_get (v_str v) id = Some name /\ gsym_get (v_gsyms v) id = Some o.

Lemma function_lookup X (v : vm X) name id o : global_is v name id o ->
  exists w, ('(sm', i) <- sm_register sm_fuel (v_str v) name false ;; vm_gload (vm_pushs (set_str v sm') i)) = Ok w /\
    w = push v o.
Proof.
  intros (H1 & H2 & H3 & H4). unfold sm_register. rewrite H1. cbn [bind]. unfold vm_pushs, wrap16.
  rewrite Z.mod_small by (change (2 ^ 16) with 65536; lia). cbn [v_str set_str]. rewrite H3. unfold vm_gload, stack_assert, type_assert, stack_at.
  change (stack (push (set_str v (v_str v)) (OStr id name))) with (OStr id name :: stack v).
  replace (zlen (OStr id name :: stack v) - 1 <? 0) with false by (unfold zlen; cbn [length]; lia). cbn.
  rewrite H4. eexists. split; [reflexivity|]. destruct v. reflexivity.
Qed.

Theorem C63_function_call_no_arguments_partial :
  forall X flist powf size code fuel (v v' : vm X) name id ref act,
    Forall c_function_ok flist -> (v_state v = S_READY \/ v_state v = S_DONE) -> v_stacks v <> [] ->
    global_is v name id (OClos true ref act) ->
    function_call flist powf code size fuel v name 0 = Ok v' -> v_state v' = S_READY ->
    exists r v1, v_stacks v' = (r :: stack v) :: tl (v_stacks v) /\ v_lsymts v' = v_lsymts v /\ v_pc v' = v_pc v /\
      entered v1 ref act /\ v_heap v1 = v_heap v /\ v_str v1 = v_str v /\ v_gsyms v1 = v_gsyms v /\ v_ext v1 = v_ext v /\
      returned flist powf code size v1 v' r.
Proof.
  intros X flist powf size code fuel v v' name id ref act HC HS HN HG H HR. unfold function_call in H.
  set (u := match v_state v with S_DONE => _ | _ => v end) in H.
  assert (HU : v_state u = S_READY /\ v_stacks u = v_stacks v /\ v_lsymts u = v_lsymts v /\ v_pc u = v_pc v /\ global_is u name id (OClos true ref act)).
  { unfold u. destruct HS as [Hs|Hs]; rewrite Hs; repeat split; auto; apply HG. }
  destruct HU as (U1 & U2 & U3 & U4 & U5). rewrite U1 in H. cbn [is_ready negb] in H.
  destruct (function_lookup X u name id _ U5) as (w & E1 & E2).
  destruct (sm_register sm_fuel (v_str u) name false) as [[sm' i]| | |]; cbn [bind] in H, E1; try discriminate. rewrite E1 in H. cbn [bind] in H.
  subst w. unfold stack_at in H. cbn in H.
  destruct (C64_closure_call_balanced_partial X flist powf size code fuel (push u (OClos true ref act)) v' [] ref act (stack u) HC U1 eq_refl H HR)
    as (r & v1 & A1 & A2 & A3 & A4 & A5 & A6 & A7 & A8 & A9).
  assert (HD : v_heap u = v_heap v /\ v_str u = v_str v /\ v_gsyms u = v_gsyms v /\ v_ext u = v_ext v) by (unfold u; destruct (v_state v); repeat split).
  destruct HD as (D1 & D2 & D3 & D4).
  exists r, v1. rewrite app_nil_r in A4. unfold stack. rewrite <- U2, <- U3, <- U4, <- D1, <- D2, <- D3, <- D4. repeat split; auto; apply A4.
Qed.
Print Assumptions C63_function_call_no_arguments_partial.

Theorem C63_function_call_with_arguments_refuted :
  forall X flist powf size code fuel (v : vm X) name id n ref act argc,
    (v_state v = S_READY \/ v_state v = S_DONE) -> global_is v name id (OClos n ref act) -> 0 < argc ->
    function_call flist powf code size fuel v name argc = UB.
Proof.
  intros X flist powf size code fuel v name id n ref act argc HS HG HA. unfold function_call.
  set (u := match v_state v with S_DONE => _ | _ => v end).
  assert (HU : v_state u = S_READY /\ global_is u name id (OClos n ref act)).
  { unfold u. destruct HS as [Hs|Hs]; rewrite Hs; repeat split; auto; apply HG. }
  destruct HU as (U1 & U5). rewrite U1. cbn [is_ready negb].
  destruct (function_lookup X u name id _ U5) as (w & E1 & E2).
  destruct (sm_register sm_fuel (v_str u) name false) as [[sm' i]| | |]; cbn [bind] in E1 |- *; try discriminate. rewrite E1. cbn [bind].
  subst w. unfold stack_at. cbn. replace (0 <? argc) with true by lia. reflexivity.
Qed.
Print Assumptions C63_function_call_with_arguments_refuted.
(** A global function "step" at 30 (the function twice above without its argument would need a
    body of its own: here it returns nil). *)
Definition vm_step_fun : vm unit :=
  set_gsyms (set_str vm0 (match sm_register 3 sm_new [115; 116; 101; 112] true with Ok (sm, _) => sm | _ => sm_new end))
            (gsym_set (pnew 20) 0 (OClos true 3 [ONil])).
Example C63_nontrivial :
  global_is vm_step_fun [115; 116; 101; 112] 0 (OClos true 3 [ONil]) /\
  match function_call [] no_pow (mem_of [0; 0; 0; 5; 0]) 5 10 vm_step_fun [115; 116; 101; 112] 0 with
  | Ok v' => v_state v' = S_READY /\ stack v' = [ONil]
  | _ => False
  end.
Proof. split; [repeat split; vm_compute; auto; discriminate|vm_compute; split; reflexivity]. Qed.
