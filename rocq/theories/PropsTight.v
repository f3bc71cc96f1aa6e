(** Theorems added after testing the model against wrong programs: C93, C74, C78. *)
From Coq Require Import String.
From Verif Require Import Base ListLemmas Float Dict DictProofs PDict PDictKeys Strman Obj Instr Vm VmSpec VmProofs PropsVm PropsVmData PropsVmFrames VmCode
  StrmanProofs Text TextProofs Debug PropsDebug Msg MsgProofs Wire WireSpec WireProofs Messages PropsMessages MessagesProofs.
Local Open Scope Z_scope. Local Open Scope list_scope.
Ltac Zify.zify_post_hook ::= idtac.

(** ** C93: a closure made inside a function keeps the values its local variables have at that moment *)
Theorem C93_closure_keeps_locals :
  forall X flist powf size code (v0 : vm X) locals sw L,
    can_run code size v0 I_PUSHL -> v_lsymts v0 = mkLs (map Some locals) sw :: L ->
    exists addr,
      (0 <= instr_arg code v0 < 2 ^ 31 -> addr = instr_arg code v0) /\
      vm_step flist powf code size v0 = Ok (next v0 5 (OClos true addr locals :: stack v0)) /\
      (* called from anywhere, at any later time: those values come first, then the arguments *)
      forall (w w1 : vm X) o args self s,
        Forall c_function_ok flist -> (o = I_CALLC \/ o = I_CALLS) -> about_to code w o ->
        stack w = OInt (zlen args) :: rev args ++ OClos true addr locals :: self :: s ->
        vm_step flist powf code size w = Ok w1 -> v_state w1 = S_READY -> entered w1 addr (locals ++ args).
Proof.
  intros X flist powf size code v0 locals sw L HR HL. exists (sign32 (instr_arg code v0)). split; [|split].
  - intro H. unfold sign32, wrap32. rewrite Z.mod_small by lia. replace (instr_arg code v0 <? 2 ^ 31) with true by lia. reflexivity.
  - rewrite (arg_exec flist powf code size v0 I_PUSHL vm_pushl); auto. unfold vm_pushl. cbn [v_lsymts set_pc bump set_oldpc]. rewrite HL. cbn [ls_syms].
    assert (E : all_init (map Some locals) = Ok locals). { induction locals as [|x l IH]; auto. cbn [map all_init]. assert (IH' : all_init (map Some l) = Ok l). { clear - l. induction l as [|y l IH]; auto. cbn [map all_init]. rewrite IH. reflexivity. } rewrite IH'. reflexivity. }
    rewrite E. reflexivity.
  - intros w w1 o args self s HC HO HA HS HW HW1. exact (proj1 (C40_call_return_balanced X flist powf size code w w1 o args _ _ _ _ HC HO HA HS HW HW1)).
Qed.
Print Assumptions C93_closure_keeps_locals.
Example C93_case :
  let code := mem_of [opnum I_PUSHL; 9; 0; 0; 0; 0] in
  let v := set_lsymts vm0 [mkLs (map Some [ONil; OInt 3]) false] in
  can_run code 6 v I_PUSHL /\ v_lsymts v = mkLs (map Some [ONil; OInt 3]) false :: [] /\
  vm_step [] no_pow code 6 v = Ok (next v 5 [OClos true 9 [ONil; OInt 3]]).
Proof. cbv zeta. split; [|split; reflexivity]. split; [split; reflexivity|]. vm_compute. split; [discriminate|reflexivity]. Qed.

Lemma one_record off e : from_offset (info_set dbg_new off (de_line e) (de_col e) (de_file e)) off = Some e.
Proof.
  assert (ED : info_set dbg_new off (de_line e) (de_col e) (de_file e) = record_all [(off, e)]) by reflexivity. rewrite ED.
  refine (proj2 (proj1 (C48_debug_map [(off, e)]) off e) _). exists [], []. split; [reflexivity|]. intros ? [].
Qed.
(** ** C74: file names longer than the buffer *)
Lemma load_long n off e rest d : -2147483648 <= off < 2147483648 -> 0 <= de_line e < 2 ^ 64 -> 0 <= de_col e < 2 ^ 64 -> 512 < zlen (de_file e) < 65535 ->
  Forall (fun c => c <> 0) (de_file e) ->
  load_entries (S n) (dump_entry (off, e) ++ rest) 512 d = load_entries n rest (zlen (de_file e) + 1) (info_set d off (de_line e) (de_col e) (de_file e)).
Proof.
  intros H1 H2 H3 H4 H5. pose proof (Zle_0_nat (length (de_file e))). unfold dump_entry. rewrite (wrap16_id (zlen (de_file e))) by (unfold zlen in *; lia).
  assert (EF : firstn (Z.to_nat (zlen (de_file e))) (de_file e) = de_file e) by (rewrite firstn_all2 by (unfold zlen; lia); auto). rewrite EF.
  rewrite <- ?app_assoc. set (f := le 4 off ++ _). cbn [load_entries].
  assert (LF : length f = (22 + length (de_file e) + length rest)%nat) by (unfold f; rewrite !app_length, !le_length; lia).
  replace (zlen f <? 22) with false by (unfold zlen; lia).
  assert (S4 : firstn 4 f = le 4 off) by (unfold f; apply firstn_app_exact; apply le_length).
  assert (K4 : skipn 4 f = le 8 (de_line e) ++ le 8 (de_col e) ++ le 2 (zlen (de_file e)) ++ de_file e ++ rest) by (unfold f; apply skipn_app_exact; apply le_length).
  assert (K12 : skipn 12 f = le 8 (de_col e) ++ le 2 (zlen (de_file e)) ++ de_file e ++ rest).
  { change 12%nat with (4 + 8)%nat. rewrite <- skipn_skipn_add, K4. apply skipn_app_exact, le_length. }
  assert (K20 : skipn 20 f = le 2 (zlen (de_file e)) ++ de_file e ++ rest).
  { change 20%nat with (12 + 8)%nat. rewrite <- skipn_skipn_add, K12. apply skipn_app_exact, le_length. }
  assert (K22 : skipn 22 f = de_file e ++ rest).
  { change 22%nat with (20 + 2)%nat. rewrite <- skipn_skipn_add, K20. apply skipn_app_exact, le_length. }
  rewrite S4, K4, K12, K20, K22, !firstn_app_exact by apply le_length. rewrite unle_le4 by lia. rewrite !unle_le; try (unfold zlen in *; change (256 ^ Z.of_nat 8) with (2 ^ 64); change (256 ^ Z.of_nat 2) with 65536; lia).
  cbv zeta. replace (512 <? zlen (de_file e)) with true by lia. rewrite (wrap16_id (zlen (de_file e) + 1)) by (unfold zlen in *; lia). replace (zlen (de_file e) + 1 <? zlen (de_file e)) with false by lia.
  replace (zlen (de_file e ++ rest) <? zlen (de_file e)) with false by (unfold zlen; rewrite app_length; lia).
  replace (zlen (de_file e) =? zlen (de_file e) + 1) with false by lia.
  rewrite (skipn_app_exact (Z.to_nat (zlen (de_file e)))), firstn_app_exact by (unfold zlen; lia). rewrite TextProofs.cstr_id by auto. reflexivity.
Qed.
(** The buffer grows: a name of more than 512 characters is loaded (compare C74_long_name_refuted). *)
Theorem C74_longer_name :
  forall off e, -2147483648 <= off < 2147483648 -> 0 <= de_line e < 2 ^ 64 -> 0 <= de_col e < 2 ^ 64 -> 512 < zlen (de_file e) < 65535 ->
    Forall (fun c => c <> 0) (de_file e) ->
    exists d, fromfile dbg_new (dump_entry (off, e)) = Ok (d, 1) /\ from_offset d off = Some e.
Proof.
  intros off e H1 H2 H3 H4 H0. unfold fromfile. rewrite <- (app_nil_r (dump_entry (off, e))). rewrite load_long by auto.
  exists (info_set dbg_new off (de_line e) (de_col e) (de_file e)). split; [|apply one_record].
  rewrite app_nil_r. assert (LF : exists n, length (dump_entry (off, e)) = S n). { unfold dump_entry. rewrite !app_length, !le_length. cbn [Nat.add]. eauto. }
  destruct LF as [n ->]. reflexivity.
Qed.
Print Assumptions C74_longer_name.
Example C74_longer_name_case :
  let e := mkDe 3 4 (repeat 97 600) in 512 < zlen (de_file e) < 65535 /\ Forall (fun c => c <> 0) (de_file e).
Proof. cbv zeta. split; [vm_compute; split; reflexivity|]. cbn [de_file]. apply Forall_forall. intros x Hx. apply repeat_spec in Hx. subst. discriminate. Qed.

(** ** C78: stigmergy messages that are cut off *)
(** With less than the type and the id, and with nothing after the id, the message is malformed, and no
    more is read.  [2] is the type of a value that was written, [3] of a query. *)
Theorem C78_cut_off_stigmergy :
  forall (listening has_vstig : Z -> bool) ty sm, (ty = 2 \/ ty = 3) ->
    recv listening has_vstig [ty] sm = Ok (PMalformed, sm) /\
    (forall a, recv listening has_vstig [ty; a] sm = Ok (PMalformed, sm)) /\
    (forall a b, 0 <= a < 256 -> 0 <= b < 256 -> has_vstig (256 * a + b) = true -> recv listening has_vstig [ty; a; b] sm = Ok (PMalformed, sm)).
Proof.
  intros listening has_vstig ty sm HT. assert (ER : forall t a b r, 0 <= a < 256 -> 0 <= b < 256 -> de_u16 (t :: a :: b :: r) 1 = Ok (Some (256 * a + b, 3))).
  { intros t a b r Ha Hb. assert (EE : enc16 (256 * a + b) = [a; b]).
    { unfold enc16. f_equal; [symmetry; apply Z.div_unique with b; lia|f_equal; symmetry; apply Z.mod_unique with a; lia]. }
    pose proof (de_u16_1 t (256 * a + b) r ltac:(lia)) as H. rewrite EE in H. exact H. }
  split; [|split].
  - destruct HT as [-> | ->]; reflexivity.
  - intro a. destruct HT as [-> | ->]; reflexivity.
  - intros a b Ha Hb HV. unfold recv. change (byte_at [ty; a; b] 0) with (@Ok Z ty). cbn [bind]. rewrite ER by auto. cbn [bind]. rewrite HV. destruct HT as [-> | ->]; reflexivity.
Qed.
Print Assumptions C78_cut_off_stigmergy.
Example C78_cut_off_case : recv (fun _ => true) (fun _ => true) [3; 0; 1] sm_new = Ok (PMalformed, sm_new).
Proof. reflexivity. Qed.
