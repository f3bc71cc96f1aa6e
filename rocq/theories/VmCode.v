(** Where the instructions of an assembled program are in memory, and steps over them. *)
From Verif Require Import Base ListLemmas Float Dict PDict DictProofs PDictKeys Strman Obj Instr Vm VmSpec VmProofs PropsVmData Text Asm AsmSpec AsmProofs.

Ltac Zify.zify_post_hook ::= idtac.

(** Memory [code] holds, from address [a] on, the bytes of [p]; [env]: addresses of labels. *)
Definition code_at (strtof : list Z -> option Z) (env : str -> Z) (code : Z -> Z) (a : Z) (p : list aline) : Prop :=
  forall i, 0 <= i < address p -> code (a + i) = nth (Z.to_nat i) (code_bytes strtof env p) 0.

Lemma line_size_pos l : 0 <= line_size l.
Proof. destruct l; cbn [line_size]; try lia; [unfold zlen; lia|destruct (has_arg o); lia]. Qed.
Lemma address_pos p : 0 <= address p.
Proof. induction p as [|l p IH]; cbn [address]; [lia|]. pose proof (line_size_pos l). lia. Qed.
Lemma address_cat p q : address (p ++ q) = address p + address q.
Proof. induction p as [|l p IH]; cbn [address app]; lia. Qed.
Lemma line_len strtof env l : zlen (line_bytes strtof env l) = line_size l.
Proof.
  destruct l; cbn [line_bytes line_size]; auto.
  - unfold zlen. rewrite app_length. cbn. lia.
  - unfold zlen. destruct (has_arg o); reflexivity.
Qed.
Lemma bytes_length strtof env p : zlen (code_bytes strtof env p) = address p.
Proof.
  unfold code_bytes. induction p as [|l p IH]; auto. cbn [map concat address]. rewrite <- IH, <- (line_len strtof env l).
  unfold zlen. rewrite app_length. lia.
Qed.
Lemma bytes_cat strtof env p q : code_bytes strtof env (p ++ q) = code_bytes strtof env p ++ code_bytes strtof env q.
Proof. unfold code_bytes. rewrite map_app, concat_app. reflexivity. Qed.

Section Code.
Variable strtof : list Z -> option Z.
Variable env : str -> Z.
Variable code : Z -> Z.
Notation code_at := (code_at strtof env code).

Lemma code_at_app a p q : code_at a (p ++ q) <-> code_at a p /\ code_at (a + address p) q.
Proof.
  pose proof (address_pos p). pose proof (address_pos q). pose proof (bytes_length strtof env p) as HL. unfold zlen in HL.
  unfold VmCode.code_at. rewrite address_cat, bytes_cat. split.
  - intro H1. split; intros i Hi.
    + rewrite H1 by lia. rewrite app_nth1; auto. lia.
    + replace (a + address p + i) with (a + (address p + i)) by lia. rewrite H1 by lia. rewrite app_nth2 by lia. f_equal. lia.
  - intros [H1 H2] i Hi. destruct (Z_lt_le_dec i (address p)).
    + rewrite app_nth1 by lia. apply H1. lia.
    + rewrite app_nth2 by lia. replace (a + i) with (a + address p + (i - address p)) by lia. rewrite H2 by lia. f_equal. lia.
Qed.
Lemma code_at_cons a l p : code_at a (l :: p) <-> code_at a [l] /\ code_at (a + line_size l) p.
Proof. change (l :: p) with ([l] ++ p). rewrite code_at_app. cbn [address]. rewrite Z.add_0_r. reflexivity. Qed.

(** The whole program, from its bytes. *)
Lemma code_at_start pre p post a : a = zlen pre ->
  code = (fun i => if 0 <=? i then nth (Z.to_nat i) (pre ++ code_bytes strtof env p ++ post) 0 else 0) -> code_at a p.
Proof.
  intros -> -> i Hi. replace (0 <=? zlen pre + i) with true by (unfold zlen; lia).
  pose proof (bytes_length strtof env p) as HL. unfold zlen in *.
  rewrite app_nth2 by lia. rewrite app_nth1 by lia. f_equal. lia.
Qed.

(** What the VM does at an instruction. *)
Lemma at_instr {X} (v : vm X) o x d size : code_at (v_pc v) [L_instr o x d] -> v_state v = S_READY -> 0 <= v_pc v -> v_pc v + instr_len o < size ->
  can_run code size v o /\ (has_arg o = true -> instr_arg code v = wrap32 (operand_value strtof env x)).
Proof.
  intros HC HR H0 HS. unfold VmCode.code_at in HC. cbn [address line_size] in HC. unfold code_bytes in HC. cbn [map concat line_bytes] in HC. rewrite app_nil_r in HC.
  split.
  - split; [|lia]. split; auto. rewrite <- (Z.add_0_r (v_pc v)). rewrite HC by (destruct (has_arg o); lia). reflexivity.
  - intro HA. rewrite HA in HC. unfold instr_arg. rewrite !HC by lia. unfold le32. cbn [nth Z.to_nat Pos.to_nat Pos.iter_op].
    set (w := operand_value strtof env x). unfold wrap32.
    change (Pos.to_nat 1) with 1%nat. change (Pos.to_nat 2) with 2%nat. change (Pos.to_nat 3) with 3%nat. change (Pos.to_nat 4) with 4%nat. cbn [nth].
    pose proof (Z.div_mod w 256 ltac:(lia)). pose proof (Z.div_mod (w / 256) 256 ltac:(lia)).
    pose proof (Z.div_mod (w / 65536) 256 ltac:(lia)). pose proof (Z.div_mod (w / 16777216) 256 ltac:(lia)).
    replace (w / 256 / 256) with (w / 65536) in * by (rewrite Z.div_div by lia; reflexivity).
    replace (w / 65536 / 256) with (w / 16777216) in * by (rewrite Z.div_div by lia; reflexivity).
    replace (w / 16777216 / 256) with (w / 4294967296) in * by (rewrite Z.div_div by lia; reflexivity).
    change (2 ^ 32) with 4294967296. rewrite Z.mod_eq by lia. lia.
Qed.
End Code.

(** Steps over instructions with an argument. *)
Section Steps.
Context {X : Type}.
Implicit Types v : vm X.
Variable flist : list (vm X -> res (vm X)).
Variable powf : libm.
Variable code : Z -> Z.
Variable size : Z.
Notation vm_step := (vm_step flist powf code size).

Lemma arg_exec v o (K : vm X -> Z -> res (vm X)) : has_arg o = true -> can_run code size v o ->
  exec flist powf code size v o = inc_pc size v (fun v => get_arg code size v K) ->
  vm_step v = K (set_pc (bump v) (v_pc v + 5)) (instr_arg code v).
Proof.
  intros HA HC HE. rewrite (step_at flist powf code size v _ (proj1 HC)), HE. rewrite (run_inc code size v o _ HC), (run_arg code size v o _ HA HC). reflexivity.
Qed.
Lemma pushs_step v i s : can_run code size v I_PUSHS -> instr_arg code v = wrap32 i -> 0 <= i < 65536 -> sm_get (v_str v) i = Some s ->
  vm_step v = Ok (next v 5 (OStr i s :: stack v)).
Proof.
  intros HC HI Hi HS. rewrite (arg_exec v I_PUSHS (fun v a => Ok (vm_pushs v a))); auto. rewrite HI. unfold vm_pushs.
  replace (wrap16 (wrap32 i)) with i by (unfold wrap16, wrap32; rewrite (Z.mod_small i (2 ^ 32)), (Z.mod_small i (2 ^ 16)) by lia; reflexivity).
  cbn [v_str set_pc bump set_oldpc]. rewrite HS. reflexivity.
Qed.
Lemma pushcn_step v a : can_run code size v I_PUSHCN -> instr_arg code v = wrap32 a -> 0 <= a < 2 ^ 31 ->
  vm_step v = Ok (next v 5 (OClos true a [ONil] :: stack v)).
Proof.
  intros HC HI Ha. rewrite (arg_exec v I_PUSHCN (fun v a => Ok (vm_pushc v a true))); auto. rewrite HI. unfold vm_pushc.
  replace (sign32 (wrap32 a)) with a; [reflexivity|]. unfold sign32, wrap32. rewrite Zmod_mod, (Z.mod_small a (2 ^ 32)) by lia. replace (a <? 2 ^ 31) with true by lia. reflexivity.
Qed.
End Steps.
