(** Theorems about failed checks of the virtual machine: C39, C61. *)
From Verif Require Import Base ListLemmas Float Dict PDict Strman Obj ObjSpec Instr Vm VmSpec VmProofs VmFrames PropsVm PropsVmArith.

Ltac zl := repeat match goal with
  | |- context [zlen ?l - ?k <? 0] =>
      first [ replace (zlen l - k <? 0) with false by (unfold zlen; cbn [length]; lia)
            | replace (zlen l - k <? 0) with true by (unfold zlen; cbn [length]; lia) ]
  end.

(** The number of local symbols of the current function. *)
Definition locals {X} (v : vm X) : Z := match v_lsymts v with ls :: _ => zlen (ls_syms ls) | [] => 0 end.

Definition failed {X} (v v' : vm X) (e : verr) : Prop :=
  v_state v' = S_ERROR /\ v_error v' = e /\ nothing_pushed v v' /\ v_heap v' = v_heap v /\ v_gsyms v' = v_gsyms v.

Lemma np_refl X (v v' : vm X) : stack v' = stack v -> nothing_pushed v v'.
Proof. intro H. exists []. rewrite H. reflexivity. Qed.

Section L.
Context {X : Type}.
Variable size : Z.
Implicit Types v : vm X.

Lemma op_inc_err v r v1 e : 0 <= v_pc v -> v_pc v + 1 < size -> r = Ok v1 -> v_pc v1 = v_pc v -> failed v v1 e ->
  exists v', op_inc size r = Ok v' /\ failed v v' e.
Proof.
  intros H0 H1 -> HP (A & B & C & D & E). unfold op_inc. cbn [bind]. unfold inc_pc. cbn [v_pc set_pc set_oldpc]. rewrite HP.
  replace (pc_ok size (v_pc v + 1)) with true by (unfold pc_ok; lia). eexists. split; [reflexivity|]. repeat split; auto.
Qed.
Lemma inc_err v k e : 0 <= v_pc v -> v_pc v + 1 < size -> (exists v', k (bump v) = Ok v' /\ failed v v' e) ->
  exists v', inc_pc size v k = Ok v' /\ failed v v' e.
Proof.
  intros H0 H1 H. unfold inc_pc. cbn [v_pc set_pc set_oldpc].
  replace (pc_ok size (v_pc v + 1)) with true by (unfold pc_ok; lia). exact H.
Qed.
Lemma arg_err code v k e : 0 <= v_pc v -> v_pc v + 5 < size -> (exists v', k (set_pc (bump v) (v_pc v + 5)) (instr_arg code v) = Ok v' /\ failed v v' e) ->
  exists v', inc_pc size v (fun v => get_arg code size v k) = Ok v' /\ failed v v' e.
Proof.
  intros H0 H1 H. apply inc_err; auto; [lia|]. unfold get_arg. cbn [v_pc bump set_pc set_oldpc].
  replace (pc_ok size (v_pc v + 1 + 4)) with true by (unfold pc_ok; lia).
  replace (word code (v_pc v + 1)) with (instr_arg code v)
    by (unfold word, instr_arg; replace (v_pc v + 1 + 1) with (v_pc v + 2) by lia; replace (v_pc v + 1 + 2) with (v_pc v + 3) by lia;
        replace (v_pc v + 1 + 3) with (v_pc v + 4) by lia; reflexivity).
  replace (v_pc v + 1 + 4) with (v_pc v + 5) by lia. exact H.
Qed.
Lemma failed_err v e : failed v (err v e) e.
Proof. repeat split. apply np_refl. reflexivity. Qed.
Lemma failed_popped v s p e : stack v = p ++ s -> failed v (err (set_stack v s) e) e.
Proof. intro H. repeat split. exists p. rewrite H. reflexivity. Qed.

(** Requirements as cases. *)
Lemma req1 p s e : require [p] s = Some e -> (s = [] /\ e = E_STACK) \/ exists a t, s = a :: t /\ p a = false /\ e = E_TYPE.
Proof.
  unfold require. destruct s as [|a t].
  - cbn. intro H. inversion H. auto.
  - replace (zlen (a :: t) <? zlen [p]) with false by (unfold zlen; cbn [length]; lia). cbn [kinds_ok]. rewrite andb_true_r.
    destruct (p a) eqn:E; intro H; inversion H. right. eauto.
Qed.
Lemma req2 p q s e : require [p; q] s = Some e ->
  ((s = [] \/ exists a, s = [a]) /\ e = E_STACK) \/ exists a b t, s = a :: b :: t /\ p a && q b = false /\ e = E_TYPE.
Proof.
  unfold require. destruct s as [|a [|b t]].
  - cbn. intro H. inversion H. eauto.
  - cbn. intro H. inversion H. eauto.
  - replace (zlen (a :: b :: t) <? zlen [p; q]) with false by (unfold zlen; cbn [length]; lia). cbn [kinds_ok]. rewrite andb_true_r.
    destruct (p a && q b) eqn:E; intro H; inversion H. right. eauto 6.
Qed.
Lemma req3 p q r s e : require [p; q; r] s = Some e ->
  ((s = [] \/ (exists a, s = [a]) \/ exists a b, s = [a; b]) /\ e = E_STACK) \/
  exists a b c t, s = a :: b :: c :: t /\ p a && (q b && r c) = false /\ e = E_TYPE.
Proof.
  unfold require. destruct s as [|a [|b [|c t]]].
  1-3: cbn; intro H; inversion H; left; split; [eauto 6|reflexivity].
  replace (zlen (a :: b :: c :: t) <? zlen [p; q; r]) with false by (unfold zlen; cbn [length]; lia). cbn [kinds_ok]. rewrite andb_true_r.
  destruct (p a && (q b && r c)) eqn:E; intro H; inversion H. right. eauto 8.
Qed.
End L.


Lemma call_err {X} flist size (v : vm X) w e :
  require_call (zlen flist) (stack v) = Some e ->
  (forall n s, stack v = OInt n :: s -> 0 <= n < 2 ^ 31 - 1) ->
  exists v', if_ready (vm_call flist (bump v) w) (fun v => Ok (assert_pc size v)) = Ok v' /\ failed v v' e.
Proof.
  intros HE HN. unfold vm_call, stack_assert, type_assert. change (stack (bump v)) with (stack v).
  destruct (stack v) as [|o t] eqn:HS; cbn [require_call] in HE.
  - inversion HE. cbn. eexists. split; [reflexivity|]. repeat split. apply np_refl. reflexivity.
  - zl. unfold stack_at at 1. change (stack (bump v)) with (stack v). rewrite HS. cbn [Z.leb Z.to_nat Z.sub Z.compare Pos.compare Pos.compare_cont nth_error bind].
    change (nth_error (o :: t) (Z.to_nat (1 - 1))) with (Some o). cbn [bind].
    destruct o as [|n| | | | |]; try (inversion HE; cbn; eexists; split; [reflexivity|]; repeat split; apply np_refl; reflexivity).
    specialize (HN n t eq_refl). cbn [otype]. rewrite Z.eqb_refl.
    replace (n + 1 >=? 2 ^ 31) with false by (symmetry; rewrite Z.geb_leb; lia).
    change (stack (set_stack (bump v) t)) with t.
    destruct (zlen t <? n + 1) eqn:EZ.
    + replace (zlen t - (n + 1) <? 0) with true by lia. inversion HE. cbn. eexists. split; [reflexivity|].
      repeat split. exists [OInt n]. exact HS.
    + replace (zlen t - (n + 1) <? 0) with false by lia. unfold stack_at. change (stack (set_stack (bump v) t)) with t.
      replace (1 <=? n + 1) with true by lia. replace (n + 1 - 1) with n by lia.
      assert (HL : (Z.to_nat n < length t)%nat) by (unfold zlen in EZ; lia).
      destruct (nth_error t (Z.to_nat n)) as [c|] eqn:EC; [|apply nth_error_None in EC; lia]. cbn [bind].
      destruct c; try (inversion HE; cbn; eexists; split; [reflexivity|]; repeat split; exists [OInt n]; exact HS).
      cbn [otype]. rewrite Z.eqb_refl. cbn [bind]. destruct (negb native && (zlen flist <=? ref)); [|discriminate]. inversion HE. cbn. eexists. split; [reflexivity|].
      repeat split. exists [OInt n]. exact HS.
Qed.

Theorem C39_failed_check_is_error_partial :
  forall X flist powf size code (v : vm X) o e,
    can_run code size v o ->
    operand_error (zlen flist) (sm_get (v_str v)) (locals v) o (instr_arg code v) (stack v) = Some e ->
    (In o [I_RET1; I_LLOAD; I_LREMOVE] -> v_lsymts v <> []) ->
    (o = I_TGET -> forall k a s, stack v = k :: OTab a :: s -> a_key k = true) ->
    (In o [I_CALLC; I_CALLS] -> forall n s, stack v = OInt n :: s -> 0 <= n < 2 ^ 31 - 1) ->
    exists v', vm_step flist powf code size v = Ok v' /\ failed v v' e.
Proof.
  intros X flist powf size code v o e HC HE HF HT HN. rewrite (step_at flist powf code size v o (proj1 HC)).
  destruct HC as (HA & H0 & H1).
  destruct o; cbn [operand_error] in HE; try discriminate HE; unfold instr_len in H1; cbn in H1; cbn [exec].
  all: try (match type of HE with require [_] _ = _ => apply req1 in HE as [[HS ->]|(a & t & HS & HK & ->)] end).
  all: try (match type of HE with require [_; _] _ = _ => apply req2 in HE as [[[HS|(a & HS)] ->]|(a & b & t & HS & HK & ->)] end).
  all: try (match type of HE with require [_; _; _] _ = _ => apply req3 in HE as [[[HS|[(a & HS)|(a & b & HS)]] ->]|(a & b & c & t & HS & HK & ->)] end).
  all: try discriminate HK.
  (* operators followed by inc_pc *)
  all: try (eapply (op_inc_err size v); [exact H0|exact H1| | |];
    [unfold vm_arith, vm_mod, vm_pow, vm_unm, vm_logic, vm_lnot, vm_bitwise, vm_bnot, vm_cmp, stack_assert; rewrite HS; zl; reflexivity
    |reflexivity|apply failed_err]; fail).
  all: try (eapply (op_inc_err size v); [exact H0|exact H1| | |];
    [unfold vm_arith, vm_bitwise, vm_bnot, stack_assert, type_assert, stack_at; rewrite HS; zl;
     destruct a; cbn in HK; try discriminate HK; try (destruct b; cbn in HK; try discriminate HK); reflexivity
    |reflexivity|apply failed_err]; fail).
  all: try (eapply (op_inc_err size v (_ v) (err (set_stack v t) E_TYPE)); [exact H0|exact H1| | |];
    [unfold vm_mod, vm_pow, vm_unm, stack_assert; rewrite HS; zl;
     destruct a; cbn in HK; try discriminate HK; try (destruct b; cbn in HK; try discriminate HK); reflexivity
    |reflexivity|]; fail).

  - (* dup *) apply inc_err; auto. unfold vm_dup. change (stack (bump v)) with (stack v). rewrite HS. eexists. split; [reflexivity|]. repeat split. apply np_refl. reflexivity.
  - (* pop *) unfold vm_pop. rewrite HS. cbn. eexists. split; [reflexivity|]. apply failed_err.
  - (* ret1 *) unfold vm_ret1, pop_lsyms. destruct (v_lsymts v) as [|ls L] eqn:EL; [exfalso; apply HF; auto; left; reflexivity|]. cbn [bind].
    set (v1 := set_lsymts _ L). assert (E1 : stack v1 = []) by (unfold v1; destruct (ls_swarm ls); exact HS).
    unfold stack_assert. rewrite E1. cbn. eexists. split; [reflexivity|]. unfold v1. destruct (ls_swarm ls); repeat split; apply np_refl; reflexivity.
  - eapply (op_inc_err size v _ (err (set_stack v t) E_TYPE)); [exact H0|exact H1| | |]; [|reflexivity|apply (failed_popped v t [a; b]); exact HS].
    unfold vm_mod, stack_assert. rewrite HS. zl. destruct a, b; cbn in HK; try discriminate HK; reflexivity.
  - eapply (op_inc_err size v _ (err (set_stack v t) E_TYPE)); [exact H0|exact H1| | |]; [|reflexivity|apply (failed_popped v t [a; b]); exact HS].
    unfold vm_pow, stack_assert. rewrite HS. zl. destruct a, b; cbn in HK; try discriminate HK; reflexivity.
  - eapply (op_inc_err size v _ (err (set_stack v t) E_TYPE)); [exact H0|exact H1| | |]; [|reflexivity|apply (failed_popped v t [a]); exact HS].
    unfold vm_unm, stack_assert. rewrite HS. zl. destruct a; cbn in HK; try discriminate HK; reflexivity.
  - apply inc_err; auto. unfold vm_gload, stack_assert. change (stack (bump v)) with (stack v). rewrite HS. zl. eexists. split; [reflexivity|]. repeat split. apply np_refl. reflexivity.
  - apply inc_err; auto. unfold vm_gload, stack_assert, type_assert, stack_at. change (stack (bump v)) with (stack v). rewrite HS. zl.
    destruct a; cbn in HK; try discriminate HK; cbn; eexists; (split; [reflexivity|]); repeat split; apply np_refl; reflexivity.
  - apply inc_err; auto. unfold vm_gstore, stack_assert. change (stack (bump v)) with (stack v). rewrite HS. zl. eexists. split; [reflexivity|]. repeat split. apply np_refl. reflexivity.
  - apply inc_err; auto. unfold vm_gstore, stack_assert. change (stack (bump v)) with (stack v). rewrite HS. zl. eexists. split; [reflexivity|]. repeat split. apply np_refl. reflexivity.
  - apply inc_err; auto. unfold vm_gstore, stack_assert, type_assert, stack_at. change (stack (bump v)) with (stack v). rewrite HS. zl.
    destruct b; cbn in HK; try discriminate HK; cbn; eexists; (split; [reflexivity|]); repeat split; apply np_refl; reflexivity.
  - unfold vm_tput, stack_assert. rewrite HS. zl. cbn. eexists. split; [reflexivity|]. apply failed_err.
  - unfold vm_tput, stack_assert. rewrite HS. zl. cbn. eexists. split; [reflexivity|]. apply failed_err.
  - unfold vm_tput, stack_assert. rewrite HS. zl. cbn. eexists. split; [reflexivity|]. apply failed_err.
  - unfold vm_tput, stack_assert, type_assert, stack_at. rewrite HS. zl. cbn [Z.leb Z.to_nat Z.sub Z.compare Pos.compare Pos.compare_cont nth_error bind].
    destruct c; try (cbn; eexists; split; [reflexivity|]; apply failed_err).
    destruct b; cbn in HK; try discriminate HK; cbn; eexists; (split; [reflexivity|]);
      (repeat split; match type of HS with _ = ?x :: ?y :: ?z :: _ => exists [x; y; z] end; exact HS).
  - unfold vm_tget, stack_assert. rewrite HS. zl. cbn. eexists. split; [reflexivity|]. apply failed_err.
  - unfold vm_tget, stack_assert. rewrite HS. zl. cbn. eexists. split; [reflexivity|]. apply failed_err.
  - unfold vm_tget, stack_assert, type_assert, stack_at. rewrite HS. zl. cbn [Z.leb Z.to_nat Z.sub Z.compare Pos.compare Pos.compare_cont nth_error bind].
    destruct b; try (cbn; eexists; (split; [reflexivity|]); apply failed_err).
    exfalso. pose proof (HT eq_refl _ _ _ HS) as HKey. rewrite HKey in HK. discriminate.
  - apply inc_err; auto. apply call_err; auto. apply HN. cbn; tauto.
  - apply inc_err; auto. apply call_err; auto. apply HN. cbn; tauto.
  - apply arg_err; auto. unfold vm_pushs, wrap16. cbn [v_str set_pc set_oldpc bump]. change (2 ^ 16) with 65536.
    destruct (sm_get _ _); [discriminate|]. inversion HE. eexists. split; [reflexivity|]. repeat split. apply np_refl. reflexivity.
  - apply arg_err; auto. unfold vm_lload. cbn [v_lsymts set_pc set_oldpc bump]. unfold locals in HE.
    destruct (v_lsymts v) as [|ls L] eqn:EL; [exfalso; apply HF; auto; right; left; reflexivity|].
    destruct (zlen (ls_syms ls) <=? instr_arg code v) eqn:EN; [|discriminate]. inversion HE.
    replace (zlen (ls_syms ls) - 1 <? instr_arg code v) with true by lia.
    eexists. split; [reflexivity|]. repeat split. apply np_refl. reflexivity.
  - apply arg_err; auto. unfold vm_lstore, stack_assert. change (stack (set_pc (bump v) (v_pc v + 5))) with (stack v). rewrite HS. zl.
    eexists. split; [reflexivity|]. repeat split. apply np_refl. reflexivity.
  - apply arg_err; auto. unfold vm_lremove. cbn [v_lsymts set_pc set_oldpc bump]. unfold locals in HE.
    destruct (v_lsymts v) as [|ls L] eqn:EL; [exfalso; apply HF; auto; right; right; left; reflexivity|].
    destruct (zlen (ls_syms ls) <=? instr_arg code v) eqn:EN; [|discriminate]. inversion HE.
    replace (zlen (ls_syms ls) - 1 <? instr_arg code v) with true by lia.
    eexists. split; [reflexivity|]. repeat split. apply np_refl. reflexivity.
  - unfold vm_jumpif. apply arg_err; auto. unfold stack_assert. change (stack (set_pc (bump v) (v_pc v + 5))) with (stack v). rewrite HS. zl.
    eexists. split; [reflexivity|]. repeat split. apply np_refl. reflexivity.
  - unfold vm_jumpif. apply arg_err; auto. unfold stack_assert. change (stack (set_pc (bump v) (v_pc v + 5))) with (stack v). rewrite HS. zl.
    eexists. split; [reflexivity|]. repeat split. apply np_refl. reflexivity.
Qed.
Print Assumptions C39_failed_check_is_error_partial.

(** The requirements are met by ordinary code: an addition of a string. *)
Example C39_nontrivial :
  let code := mem_of [7; 0] in
  let v := push (push vm0 (OInt 3)) (OStr 5 [104; 105]) in
  can_run code 2 v I_ADD /\ operand_error 0 (sm_get (v_str v)) (locals v) I_ADD (instr_arg code v) (stack v) = Some E_TYPE.
Proof. repeat split; cbn; lia. Qed.
(** A call of something that is not a closure, in a function. *)
Example C39_nontrivial_call :
  let code := mem_of [33; 0] in
  let v := set_lsymts (set_stacks vm0 [[OInt 1; OInt 4; OInt 5; ONil]; [OInt 17]]) [mkLs [Some ONil] false] in
  can_run code 2 v I_CALLC /\ operand_error 0 (sm_get (v_str v)) (locals v) I_CALLC (instr_arg code v) (stack v) = Some E_TYPE.
Proof. repeat split; cbn; lia. Qed.

(** Bytes that are not an instruction are refused. *)
Theorem C39_unknown_instruction :
  forall X flist powf size code (v : vm X),
    v_state v = S_READY -> 47 <= code (v_pc v) ->
    exists v', vm_step flist powf code size v = Ok v' /\ failed v v' E_INSTR.
Proof.
  intros X flist powf size code v HR HB. unfold vm_step. rewrite HR. cbn [is_ready].
  replace (opcode_of (code (v_pc v))) with (@None opcode).
  - eexists. split; [reflexivity|]. apply failed_err.
  - symmetry. unfold opcode_of. apply nth_error_None. change (length opcodes) with 47%nat. lia.
Qed.
Print Assumptions C39_unknown_instruction.

(** Where no error results: reading a table with a wrong kind of key, calling with a negative
    number of arguments, calling a C closure with a negative number, and using local variables or
    returning outside of any function are all undefined behaviour. *)
Theorem C39_undefined_checks_refuted :
  forall X flist powf size code (v : vm X),
    (forall k a s, can_run code size v I_TGET -> stack v = k :: OTab a :: s -> a_key k = false ->
       vm_step flist powf code size v = UB) /\
    (forall n s, can_run code size v I_CALLC -> stack v = OInt n :: s -> - 2 ^ 31 <= n < 0 -> 
       vm_step flist powf code size v = UB) /\
    (forall ref act self s, can_run code size v I_CALLC -> stack v = OInt 0 :: OClos false ref act :: self :: s -> ref < 0 ->
       vm_step flist powf code size v = UB) /\
    (forall o, In o [I_RET0; I_RET1; I_LLOAD; I_LREMOVE] -> can_run code size v o -> v_lsymts v = [] ->
       vm_step flist powf code size v = UB) /\
    (can_run code size v I_LSTORE -> stack v <> [] -> v_lsymts v = [] -> vm_step flist powf code size v = UB).
Proof.
  intros X flist powf size code v.
  assert (HI : forall k o, can_run code size v o -> inc_pc size v k = k (bump v)).
  { intros k o (_ & H0 & H1). unfold inc_pc. cbn [v_pc set_pc set_oldpc].
    replace (pc_ok size (v_pc v + 1)) with true; [reflexivity|]. symmetry. unfold pc_ok. unfold instr_len in H1. destruct (has_arg o); lia. }
  assert (HG : forall k o, has_arg o = true -> can_run code size v o -> get_arg code size (bump v) k = k (set_pc (bump v) (v_pc v + 1 + 4)) (word code (v_pc v + 1))).
  { intros k o Ho (_ & H0 & H1). unfold get_arg. cbn [v_pc set_pc set_oldpc bump].
    replace (pc_ok size (v_pc v + 1 + 4)) with true; [reflexivity|]. symmetry. unfold pc_ok. unfold instr_len in H1. rewrite Ho in H1. lia. }
  split; [|split; [|split; [|split]]].
  - intros k a s HC HS HK. rewrite (step_at flist powf code size v _ (proj1 HC)). cbn [exec]. unfold vm_tget, stack_assert, type_assert, stack_at.
    rewrite HS. zl. cbn. destruct k; try discriminate HK; reflexivity.
  - intros n s HC HS Hn. rewrite (step_at flist powf code size v _ (proj1 HC)). cbn [exec]. rewrite (HI _ _ HC).
    unfold vm_call, stack_assert, type_assert, stack_at. change (stack (bump v)) with (stack v). rewrite HS. zl. cbn - [Z.add Z.geb Z.pow Z.sub].
    replace (n + 1 >=? 2 ^ 31) with false by (symmetry; rewrite Z.geb_leb; lia).
    change (stack (set_stack (bump v) s)) with s. replace (zlen s - (n + 1) <? 0) with false by (unfold zlen; lia).
    replace (1 <=? n + 1) with false by lia. reflexivity.
  - intros ref act self s HC HS Hn. rewrite (step_at flist powf code size v _ (proj1 HC)). cbn [exec]. rewrite (HI _ _ HC).
    unfold vm_call, stack_assert, type_assert, stack_at. change (stack (bump v)) with (stack v). rewrite HS. zl. cbn - [zlen].
    change (stack (set_stack (bump v) (OClos false ref act :: self :: s))) with (OClos false ref act :: self :: s).
    zl. cbn - [zlen]. replace (zlen flist <=? ref) with false by (unfold zlen; lia).
    replace (ref <? 0) with true by lia. reflexivity.
  - intros o Ho HC HL. rewrite (step_at flist powf code size v _ (proj1 HC)).
    destruct Ho as [<- |[<- |[<- |[<- |[]]]]]; cbn [exec].
    + unfold vm_ret0, pop_lsyms. rewrite HL. reflexivity.
    + unfold vm_ret1, pop_lsyms. rewrite HL. reflexivity.
    + rewrite (HI _ _ HC), (HG _ I_LLOAD eq_refl HC). unfold vm_lload. cbn [v_lsymts set_pc set_oldpc bump]. rewrite HL. reflexivity.
    + rewrite (HI _ _ HC), (HG _ I_LREMOVE eq_refl HC). unfold vm_lremove. cbn [v_lsymts set_pc set_oldpc bump]. rewrite HL. reflexivity.
  - intros HC HS HL. rewrite (step_at flist powf code size v _ (proj1 HC)). cbn [exec].
    rewrite (HI _ _ HC), (HG _ I_LSTORE eq_refl HC). unfold vm_lstore, stack_assert. change (stack (set_pc (bump v) (v_pc v + 1 + 4))) with (stack v).
    cbn [v_lsymts set_pc set_oldpc bump]. destruct (stack v) as [|x s]; [congruence|]. zl. rewrite HL. reflexivity.
Qed.
Print Assumptions C39_undefined_checks_refuted.
(** A script can get there: pusht, pushnil, tget. *)
Example C39_undefined_reached :
  vm_steps [] no_pow (mem_of [30; 2; 32; 0]) 4 3 vm0 = UB /\
  (* pushnil, pushcc -1, pushi 0, callc *)
  vm_steps [] no_pow (mem_of [2; 39; 255; 255; 255; 255; 36; 0; 0; 0; 0; 33; 0]) 13 4 vm0 = UB /\
  (* a return outside of any function *)
  vm_steps [] no_pow (mem_of [5; 0]) 2 1 vm0 = UB.
Proof. vm_compute. repeat split. Qed.

(** ** C61: where an error is reported *)

Section Old.
Context {X : Type}.
Implicit Types v : vm X.
Definition saidpc v v' : Prop := v_oldpc v' = v_oldpc v /\ v_pc v' = v_pc v.
Ltac fin H := inversion H; subst; clear H; cbn in *; repeat split; auto.
Ltac crush H := unfold stack_assert, type_assert, stack_at in H; brk H; fin H.
Lemma old_arith v i f v' : vm_arith v i f = Ok v' -> saidpc v v'. Proof. unfold vm_arith. intro H. crush H. Qed.
Lemma old_mod v v' : vm_mod v = Ok v' -> saidpc v v'. Proof. unfold vm_mod. intro H. crush H. Qed.
Lemma old_pow p v v' : vm_pow p v = Ok v' -> saidpc v v'. Proof. unfold vm_pow. intro H. crush H. Qed.
Lemma old_unm v v' : vm_unm v = Ok v' -> saidpc v v'. Proof. unfold vm_unm. intro H. crush H. Qed.
Lemma old_logic v f v' : vm_logic v f = Ok v' -> saidpc v v'. Proof. unfold vm_logic. intro H. crush H. Qed.
Lemma old_lnot v v' : vm_lnot v = Ok v' -> saidpc v v'. Proof. unfold vm_lnot. intro H. crush H. Qed.
Lemma old_bitwise v f v' : vm_bitwise v f = Ok v' -> saidpc v v'. Proof. unfold vm_bitwise. intro H. crush H. Qed.
Lemma old_bnot v v' : vm_bnot v = Ok v' -> saidpc v v'. Proof. unfold vm_bnot. intro H. crush H. Qed.
Lemma old_cmp powf v f v' : vm_cmp powf v f = Ok v' -> saidpc v v'. Proof. unfold vm_cmp. intro H. crush H. Qed.
Lemma old_gload v v' : vm_gload v = Ok v' -> saidpc v v'. Proof. unfold vm_gload. intro H. crush H. Qed.
Lemma old_gstore v v' : vm_gstore v = Ok v' -> saidpc v v'. Proof. unfold vm_gstore. intro H. crush H. Qed.
Lemma old_pushl v a v' : vm_pushl v a = Ok v' -> saidpc v v'. Proof. unfold vm_pushl. intro H. crush H. Qed.
Lemma old_lload v a v' : vm_lload v a = Ok v' -> saidpc v v'. Proof. unfold vm_lload. intro H. crush H. Qed.
Lemma old_lstore v a v' : vm_lstore v a = Ok v' -> saidpc v v'. Proof. unfold vm_lstore. intro H. crush H. Qed.
Lemma old_lremove v a v' : vm_lremove v a = Ok v' -> saidpc v v'. Proof. unfold vm_lremove. intro H. crush H. Qed.
Lemma old_tput v v' : vm_tput v = Ok v' -> saidpc v v'. Proof. unfold vm_tput. intro H. crush H. Qed.
Lemma old_tget v v' : vm_tget v = Ok v' -> saidpc v v'. Proof. unfold vm_tget. intro H. crush H. Qed.
Lemma old_pop v : saidpc v (vm_pop v). Proof. unfold vm_pop. destruct (stack v); split; reflexivity. Qed.
Lemma old_inc size v k v' : inc_pc size v k = Ok v' -> (forall v', k (bump v) = Ok v' -> v_oldpc v' = v_pc v) -> v_oldpc v' = v_pc v.
Proof. unfold inc_pc. destruct (pc_ok _ _); intros H HK; [apply HK; exact H|]. inversion H. reflexivity. Qed.
Lemma old_op size v r v' : op_inc size r = Ok v' -> (forall v1, r = Ok v1 -> saidpc v v1) -> v_oldpc v' = v_pc v.
Proof.
  unfold op_inc. destruct r as [v1| | |]; cbn [bind]; try discriminate. intros H HK. destruct (HK _ eq_refl) as [_ HP].
  unfold inc_pc, done_ in H. destruct (pc_ok _ _); inversion H; cbn; exact HP.
Qed.
Lemma old_arg code size v k v' : get_arg code size (bump v) k = Ok v' ->
  (forall w a v', v_oldpc w = v_pc v -> k w a = Ok v' -> v_oldpc v' = v_pc v) -> v_oldpc v' = v_pc v.
Proof. unfold get_arg. destruct (pc_ok _ _); intros H HK; [eapply HK; [|exact H]; reflexivity|]. inversion H. reflexivity. Qed.
End Old.

Lemma call_old {X} flist size (v v' : vm X) w e :
  require_call (zlen flist) (stack v) = Some e ->
  (forall n s, stack v = OInt n :: s -> 0 <= n < 2 ^ 31 - 1) ->
  if_ready (vm_call flist (bump v) w) (fun v => Ok (assert_pc size v)) = Ok v' -> v_oldpc v' = v_pc v.
Proof.
  intros HE HN H. unfold vm_call, stack_assert, type_assert in H. change (stack (bump v)) with (stack v) in H.
  destruct (stack v) as [|o t] eqn:HS; cbn [require_call] in HE.
  - cbn in H. inversion H. reflexivity.
  - replace (zlen (o :: t) - 1 <? 0) with false in H by (unfold zlen; cbn [length]; lia).
    unfold stack_at at 1 in H. change (stack (bump v)) with (stack v) in H. rewrite HS in H.
    change (nth_error (o :: t) (Z.to_nat (1 - 1))) with (Some o) in H. change (1 <=? 1) with true in H. cbn [bind] in H.
    destruct o as [|n| | | | |]; try (cbn in H; inversion H; reflexivity).
    specialize (HN n t eq_refl). cbn [otype] in H. rewrite Z.eqb_refl in H.
    replace (n + 1 >=? 2 ^ 31) with false in H by (symmetry; rewrite Z.geb_leb; lia).
    change (stack (set_stack (bump v) t)) with t in H.
    destruct (zlen t <? n + 1) eqn:EZ.
    + replace (zlen t - (n + 1) <? 0) with true in H by lia. cbn in H. inversion H. reflexivity.
    + replace (zlen t - (n + 1) <? 0) with false in H by lia. unfold stack_at in H. change (stack (set_stack (bump v) t)) with t in H.
      replace (1 <=? n + 1) with true in H by lia. replace (n + 1 - 1) with n in H by lia.
      destruct (nth_error t (Z.to_nat n)) as [c|] eqn:EC; [|discriminate]. cbn [bind] in H.
      destruct c; try (cbn in H; inversion H; reflexivity).
      cbn [otype] in H. rewrite Z.eqb_refl in H. cbn [bind] in H. destruct (negb native && (zlen flist <=? ref)); [|discriminate].
      cbn in H. inversion H. reflexivity.
Qed.
Lemma jump_old {X} size (v w v' : vm X) a t : v_oldpc w = v_pc v ->
  stack_assert w 1 (o <- stack_at w 1 ;;
      if Bool.eqb (truthy o) t then
        let v1 := assert_pc size (set_pc w (sign32 a)) in
        if is_ready (v_state v1) then Ok (vm_pop v1) else Ok v1
      else Ok (vm_pop w)) = Ok v' -> v_oldpc v' = v_pc v.
Proof.
  intros Hw H. unfold stack_assert in H. destruct (_ <? 0); [inversion H; exact Hw|].
  destruct (stack_at w 1); cbn [bind] in H; try discriminate. destruct (Bool.eqb _ _).
  - assert (E : v_oldpc (assert_pc size (set_pc w (sign32 a))) = v_pc v) by (unfold assert_pc; destruct (pc_ok _ _); exact Hw).
    cbv zeta in H. destruct (is_ready _); inversion H; subst; auto. destruct (old_pop (assert_pc size (set_pc w (sign32 a)))) as [-> _]. exact E.
  - inversion H. destruct (old_pop w) as [-> _]. exact Hw.
Qed.

Theorem C61_error_location_partial :
  forall X flist powf size code (v v' : vm X) o,
    about_to code v o -> vm_step flist powf code size v = Ok v' -> v_state v' = S_ERROR ->
    ~ In o [I_POP; I_TPUT; I_TGET; I_RET0; I_RET1] ->
    (In o [I_CALLC; I_CALLS] -> 0 <= v_pc v /\ v_pc v + 1 < size /\ require_call (zlen flist) (stack v) <> None /\
                                (forall n s, stack v = OInt n :: s -> 0 <= n < 2 ^ 31 - 1)) ->
    v_oldpc v' = v_pc v.
Proof.
  intros X flist powf size code v v' o HA H HE HO HC. rewrite (step_at flist powf code size v o HA) in H.
  destruct o; cbn [exec] in H; try (exfalso; apply HO; cbn; tauto).
  all: try (eapply old_op; [exact H|]; intros v1 H1;
    first [eapply old_arith; exact H1|eapply old_mod; exact H1|eapply old_pow; exact H1|eapply old_unm; exact H1|eapply old_logic; exact H1
          |eapply old_lnot; exact H1|eapply old_bitwise; exact H1|eapply old_bnot; exact H1|eapply old_cmp; exact H1
          |inversion H1; split; reflexivity]; fail).
  all: try (eapply old_inc; [exact H|]; clear H v' HE; intros v' H; first
    [ apply old_gload in H as [H _]; rewrite H; reflexivity
    | apply old_gstore in H as [H _]; rewrite H; reflexivity
    | inversion H; reflexivity
    | unfold vm_dup in H; destruct (stack _); inversion H; reflexivity
    | eapply old_arg; [exact H|]; clear H v'; intros w a v' Hw H; first
      [ apply old_pushl in H as [H _]; congruence | apply old_lload in H as [H _]; congruence
      | apply old_lstore in H as [H _]; congruence | apply old_lremove in H as [H _]; congruence
      | unfold vm_pushs in H; destruct (sm_get _ _); inversion H; exact Hw
      | unfold assert_pc in H; destruct (pc_ok _ _); inversion H; exact Hw
      | inversion H; exact Hw ] ]; fail).
  - inversion H. subst. discriminate.
  - destruct HC as (H0 & H1 & HR & HN); [left; reflexivity|]. destruct (require_call _ _) as [e|] eqn:ER; [|congruence]. clear HR.
    eapply old_inc; [exact H|]. clear H v' HE. intros v' H. eapply call_old; [exact ER|exact HN|exact H].
  - destruct HC as (H0 & H1 & HR & HN); [right; left; reflexivity|]. destruct (require_call _ _) as [e|] eqn:ER; [|congruence]. clear HR.
    eapply old_inc; [exact H|]. clear H v' HE. intros v' H. eapply call_old; [exact ER|exact HN|exact H].
  - unfold vm_jumpif in H. eapply old_inc; [exact H|]; clear H v' HE; intros v' H. eapply old_arg; [exact H|]; clear H v'; intros w a v' Hw H. eapply jump_old; [exact Hw|exact H].
  - unfold vm_jumpif in H. eapply old_inc; [exact H|]; clear H v' HE; intros v' H. eapply old_arg; [exact H|]; clear H v'; intros w a v' Hw H. eapply jump_old; [exact Hw|exact H].
Qed.
Print Assumptions C61_error_location_partial.

Example C61_nontrivial :
  match vm_steps [] no_pow (mem_of [2; 2; 7; 0]) 4 3 vm0 with Ok v => v_state v = S_ERROR /\ v_oldpc v = 2 | _ => False end.
Proof. vm_compute. split; reflexivity. Qed.

(** The other instructions report the one executed before, wherever it is. *)
Theorem C61_error_location_refuted :
  (forall X flist powf size code (v v' : vm X) o,
     In o [I_POP; I_TPUT; I_TGET] -> can_run code size v o -> vm_step flist powf code size v = Ok v' -> v_state v' = S_ERROR ->
     v_oldpc v' = v_oldpc v) /\
  exists code v', vm_steps [] no_pow code 9 4 vm0 = Ok v' /\ v_state v' = S_ERROR /\
    v_pc v' = 6 /\ code 6 = opnum I_TGET /\ v_oldpc v' = 5 /\ code 5 = opnum I_PUSHNIL.
Proof.
  split.
  - intros X flist powf size code v v' o HO HC H HE. rewrite (step_at flist powf code size v o (proj1 HC)) in H.
    destruct HC as ([HR _] & H0 & H1).
    assert (HD : forall v1, v_pc v1 = v_pc v -> v_state v1 = S_READY -> instr_len o = 1 -> inc_pc size v1 done_ = Ok v' -> False).
    { intros v1 HP HS HL E. unfold inc_pc in E. cbn [v_pc set_pc set_oldpc] in E. rewrite HP in E.
      replace (pc_ok size (v_pc v + 1)) with true in E by (unfold pc_ok; lia). inversion E. subst. cbn in HE. congruence. }
    destruct HO as [<- |[<- |[<- |[]]]]; cbn [exec] in H; unfold if_ready in H.
    + cbn [bind] in H. destruct (v_state (vm_pop v)) eqn:ES; cbn [is_ready] in H.
      2: { exfalso. eapply HD; [apply (proj2 (old_pop v))|exact ES|reflexivity|exact H]. }
      all: inversion H; apply (proj1 (old_pop v)).
    + destruct (vm_tput v) as [v1| | |] eqn:ET; cbn [bind] in H; try discriminate. apply old_tput in ET as [E1 E2].
      destruct (v_state v1) eqn:ES; cbn [is_ready] in H. 2: { exfalso. eapply HD; [exact E2|exact ES|reflexivity|exact H]. }
      all: inversion H; congruence.
    + destruct (vm_tget v) as [v1| | |] eqn:ET; cbn [bind] in H; try discriminate. apply old_tget in ET as [E1 E2].
      destruct (v_state v1) eqn:ES; cbn [is_ready] in H. 2: { exfalso. eapply HD; [exact E2|exact ES|reflexivity|exact H]. }
      all: inversion H; congruence.
  - exists (mem_of [36; 7; 0; 0; 0; 2; 32; 0; 0]). eexists. split; [vm_compute; reflexivity|]. repeat split.
Qed.
Print Assumptions C61_error_location_refuted.
