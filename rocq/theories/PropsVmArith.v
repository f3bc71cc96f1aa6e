(** Theorems about arithmetic, comparison, truth and failed checks of the virtual machine:
    C38, C39, C43, C62, C65. *)
From Verif Require Import Base ListLemmas Float FloatProofs Dict PDict Strman Obj ObjSpec ObjProofs Instr Vm VmSpec VmProofs VmFrames PropsVm.

Lemma op_inc_next {X} code size (v : vm X) o r s op : can_run code size v o -> instr_len o = 1 ->
  op v = Ok (push (set_stack v s) r) -> op_inc size (op v) = Ok (next v 1 (r :: s)).
Proof.
  intros ((HR & _) & H1 & H2) HL ->. unfold op_inc. cbn [bind]. unfold inc_pc. cbn [v_pc set_pc set_oldpc push set_stack set_stacks].
  rewrite HL in H2. replace (pc_ok size (v_pc v + 1)) with true by (unfold pc_ok; lia). reflexivity.
Qed.
Lemma stack_z {X} (v : vm X) o s : stack v = o :: s -> zlen (stack v) - 1 <? 0 = false.
Proof. intros ->. unfold zlen. cbn [length]. lia. Qed.
Lemma stack_z2 {X} (v : vm X) o p s : stack v = o :: p :: s -> zlen (stack v) - 2 <? 0 = false.
Proof. intros ->. unfold zlen. cbn [length]. lia. Qed.
Lemma stack_z3 {X} (v : vm X) o p q s : stack v = o :: p :: q :: s -> zlen (stack v) - 3 <? 0 = false.
Proof. intros ->. unfold zlen. cbn [length]. lia. Qed.

Lemma arith_int {X} (v : vm X) iop fop a b s : stack v = OInt b :: OInt a :: s ->
  vm_arith v iop fop = (r <- iop a b ;; Ok (push (set_stack v s) r)).
Proof. intro HS. unfold vm_arith, stack_assert. rewrite (stack_z2 v _ _ _ HS), HS. reflexivity. Qed.
Lemma bitwise_int {X} (v : vm X) f a b s : stack v = OInt b :: OInt a :: s ->
  vm_bitwise v f = (r <- f a b ;; Ok (push (set_stack v s) r)).
Proof. intro HS. unfold vm_bitwise, stack_assert, type_assert, stack_at. rewrite (stack_z2 v _ _ _ HS), HS. reflexivity. Qed.
Lemma cmp_any {X} powf (v : vm X) f a b s c : stack v = b :: a :: s -> obj_cmp_by (c_strcmp powf) a b = Ok c ->
  vm_cmp powf v f = Ok (push (set_stack v s) (of_bool ((c =? 2) || f c))).
Proof. intros HS HC. unfold vm_cmp, stack_assert. rewrite (stack_z2 v _ _ _ HS), HS, HC. reflexivity. Qed.
Lemma mod_int {X} (v : vm X) a b s : stack v = OInt b :: OInt a :: s ->
  vm_mod v = (r <- int_mod a b ;; Ok (push (set_stack v s) r)).
Proof. intro HS. unfold vm_mod, stack_assert. rewrite (stack_z2 v _ _ _ HS), HS. reflexivity. Qed.

Lemma intcmp_cases a b : (a < b /\ intkeycmp a b = -1) \/ (a = b /\ intkeycmp a b = 0) \/ (b < a /\ intkeycmp a b = 1).
Proof. unfold intkeycmp. destruct (a <? b) eqn:E1; [left; lia|]. destruct (a >? b) eqn:E2; right; [right|left]; lia. Qed.

Lemma mod_pos a b : int32_range a -> 0 < b -> int32_range b -> int_mod a b = Ok (OInt (a mod b)).
Proof.
  unfold int32_range. intros Ha Hb Hb'. unfold int_mod. replace (b =? 0) with false by lia. replace (b =? -1) with false by lia.
  rewrite andb_false_r. cbn [orb].
  pose proof (Z.quot_rem' a b) as E. pose proof (Z.rem_bound_abs a b ltac:(lia)) as HB. rewrite (Z.abs_eq b) in HB by lia.
  destruct (Z.rem a b <? 0) eqn:ER.
  - unfold i32. assert (Z.rem a b + b = a mod b) as -> by (apply Z.mod_unique_pos with (q := Z.quot a b - 1); nia).
    replace (int32_rangeb (a mod b)) with true; auto. unfold int32_rangeb. pose proof (Z.mod_pos_bound a b Hb). lia.
  - do 2 f_equal. apply Z.mod_unique_pos with (q := Z.quot a b); lia.
Qed.

Lemma i32_in z : int32_range z -> i32 z = Ok (OInt z).
Proof. unfold i32, int32_range, int32_rangeb. intro H. replace ((- 2 ^ 31 <=? z) && (z <? 2 ^ 31)) with true; auto. symmetry. lia. Qed.
Lemma i32_out z : ~ int32_range z -> i32 z = UB.
Proof. unfold i32, int32_range, int32_rangeb. intro H. replace ((- 2 ^ 31 <=? z) && (z <? 2 ^ 31)) with false; auto. symmetry. lia. Qed.

Lemma range_shift z : int32_range z <-> Z.shiftr z 31 = 0 \/ Z.shiftr z 31 = -1.
Proof. unfold int32_range. rewrite Z.shiftr_div_pow2 by lia. change (2 ^ 31) with 2147483648. lia. Qed.
Lemma land_range a b : int32_range a -> int32_range b -> int32_range (Z.land a b).
Proof. rewrite !range_shift. intros HA HB. rewrite Z.shiftr_land. destruct HA as [-> | ->], HB as [-> | ->]; cbn; auto. Qed.
Lemma lor_range a b : int32_range a -> int32_range b -> int32_range (Z.lor a b).
Proof. rewrite !range_shift. intros HA HB. rewrite Z.shiftr_lor. destruct HA as [-> | ->], HB as [-> | ->]; cbn; auto. Qed.

(** ** C38 *)

(** Every operator on two ints gives the mathematical result when it is defined and fits. *)
Theorem C38_integer_results_partial :
  forall X flist powf size code (v : vm X) o a b s r,
    In o int_binary -> can_run code size v o -> stack v = OInt b :: OInt a :: s ->
    int32_range a -> int32_range b -> (o = I_MOD -> 0 <= b) ->
    int_result o a b = Some r -> int32_range r ->
    vm_step flist powf code size v = Ok (next v 1 (OInt r :: s)).
Proof.
  intros X flist powf size code v o a b s r HO HC HS Ha Hb HM HR Hr.
  rewrite (step_at flist powf code size v o (proj1 HC)).
  assert (HB : forall P : bool, OInt (bool_int P) = of_bool P) by reflexivity.
  unfold int_binary in HO. cbn [In] in HO.
  repeat (destruct HO as [<-|HO]); [..|destruct HO]; cbn [int_result] in HR; cbn [exec].
  - inversion HR; subst. eapply (op_inc_next code size v _ _ s (fun v => vm_arith v int_add fadd) HC); [reflexivity|].
    rewrite (arith_int v _ _ a b s HS). unfold int_add. rewrite i32_in; auto.
  - inversion HR; subst. eapply (op_inc_next code size v _ _ s (fun v => vm_arith v int_sub fsub) HC); [reflexivity|].
    rewrite (arith_int v _ _ a b s HS). unfold int_sub. rewrite i32_in; auto.
  - inversion HR; subst. eapply (op_inc_next code size v _ _ s (fun v => vm_arith v int_mul fmul) HC); [reflexivity|].
    rewrite (arith_int v _ _ a b s HS). unfold int_mul. rewrite i32_in; auto.
  - eapply (op_inc_next code size v _ _ s (fun v => vm_arith v int_div fdiv) HC); [reflexivity|].
    rewrite (arith_int v _ _ a b s HS). unfold int_div. destruct (b =? 0); [discriminate|]. inversion HR; subst. rewrite i32_in; auto.
  - eapply (op_inc_next code size v _ _ s (@vm_mod X) HC); [reflexivity|].
    rewrite (mod_int v a b s HS). destruct (b =? 0) eqn:E; [discriminate|]. inversion HR; subst. rewrite mod_pos by (auto; specialize (HM eq_refl); lia). reflexivity.
  - inversion HR; subst. eapply (op_inc_next code size v _ _ s (fun v => vm_bitwise v int_and) HC); [reflexivity|].
    rewrite (bitwise_int v _ a b s HS). reflexivity.
  - inversion HR; subst. eapply (op_inc_next code size v _ _ s (fun v => vm_bitwise v int_or) HC); [reflexivity|].
    rewrite (bitwise_int v _ a b s HS). reflexivity.
  - eapply (op_inc_next code size v _ _ s (fun v => vm_bitwise v int_shl) HC); [reflexivity|].
    rewrite (bitwise_int v _ a b s HS). unfold int_shl. destruct (_ && _) eqn:E; [|discriminate].
    inversion HR; subst. rewrite Z.shiftl_mul_pow2 by lia. rewrite i32_in; auto.
  - eapply (op_inc_next code size v _ _ s (fun v => vm_bitwise v int_shr) HC); [reflexivity|].
    rewrite (bitwise_int v _ a b s HS). unfold int_shr. destruct (_ && _) eqn:E; [|discriminate].
    inversion HR; subst. rewrite Z.shiftr_div_pow2 by lia. reflexivity.
  - inversion HR; subst. rewrite HB. eapply (op_inc_next code size v _ _ s (fun v => vm_cmp powf v _) HC); [reflexivity|].
    rewrite (cmp_any powf v _ (OInt a) (OInt b) s _ HS eq_refl). destruct (intcmp_cases a b) as [[? ->]|[[? ->]|[? ->]]]; do 3 f_equal; cbn; lia.
  - inversion HR; subst. rewrite HB. eapply (op_inc_next code size v _ _ s (fun v => vm_cmp powf v _) HC); [reflexivity|].
    rewrite (cmp_any powf v _ (OInt a) (OInt b) s _ HS eq_refl). destruct (intcmp_cases a b) as [[? ->]|[[? ->]|[? ->]]]; do 3 f_equal; cbn; lia.
  - inversion HR; subst. rewrite HB. eapply (op_inc_next code size v _ _ s (fun v => vm_cmp powf v _) HC); [reflexivity|].
    rewrite (cmp_any powf v _ (OInt a) (OInt b) s _ HS eq_refl). destruct (intcmp_cases a b) as [[? ->]|[[? ->]|[? ->]]]; do 3 f_equal; cbn; lia.
  - inversion HR; subst. rewrite HB. eapply (op_inc_next code size v _ _ s (fun v => vm_cmp powf v _) HC); [reflexivity|].
    rewrite (cmp_any powf v _ (OInt a) (OInt b) s _ HS eq_refl). destruct (intcmp_cases a b) as [[? ->]|[[? ->]|[? ->]]]; do 3 f_equal; cbn; lia.
  - inversion HR; subst. rewrite HB. eapply (op_inc_next code size v _ _ s (fun v => vm_cmp powf v _) HC); [reflexivity|].
    rewrite (cmp_any powf v _ (OInt a) (OInt b) s _ HS eq_refl). destruct (intcmp_cases a b) as [[? ->]|[[? ->]|[? ->]]]; do 3 f_equal; cbn; lia.
  - inversion HR; subst. rewrite HB. eapply (op_inc_next code size v _ _ s (fun v => vm_cmp powf v _) HC); [reflexivity|].
    rewrite (cmp_any powf v _ (OInt a) (OInt b) s _ HS eq_refl). destruct (intcmp_cases a b) as [[? ->]|[[? ->]|[? ->]]]; do 3 f_equal; cbn; lia.
Qed.
Print Assumptions C38_integer_results_partial.

(** The remaining operand pairs are undefined: the list of undefined cases is complete. *)
Theorem C38_undefined_cases :
  forall X flist powf size code (v : vm X) o a b s,
    In o int_binary -> can_run code size v o -> stack v = OInt b :: OInt a :: s ->
    int32_range a -> int32_range b -> (o = I_MOD -> 0 <= b) ->
    (int_result o a b = None \/ exists r, int_result o a b = Some r /\ ~ int32_range r) ->
    vm_step flist powf code size v = UB.
Proof.
  intros X flist powf size code v o a b s HO HC HS Ha Hb HM HR.
  rewrite (step_at flist powf code size v o (proj1 HC)).
  unfold int_binary in HO. cbn [In] in HO.
  assert (HBI : forall P : bool, int32_range (bool_int P)) by (intros []; unfold int32_range; cbn; lia).
  repeat (destruct HO as [<-|HO]); [..|destruct HO]; cbn [int_result] in HR; cbn [exec]; unfold op_inc;
    rewrite ?(arith_int v _ _ a b s HS), ?(mod_int v a b s HS), ?(bitwise_int v _ a b s HS).
  - destruct HR as [HR|(r & HR & Hr)]; [discriminate|]. inversion HR; subst. unfold int_add. rewrite i32_out; auto.
  - destruct HR as [HR|(r & HR & Hr)]; [discriminate|]. inversion HR; subst. unfold int_sub. rewrite i32_out; auto.
  - destruct HR as [HR|(r & HR & Hr)]; [discriminate|]. inversion HR; subst. unfold int_mul. rewrite i32_out; auto.
  - unfold int_div. destruct (b =? 0); [reflexivity|]. destruct HR as [HR|(r & HR & Hr)]; [discriminate|]. inversion HR; subst. rewrite i32_out; auto.
  - unfold int_mod. destruct (b =? 0) eqn:E; [reflexivity|]. destruct HR as [HR|(r & HR & Hr)]; [discriminate|]. inversion HR; subst.
    specialize (HM eq_refl). exfalso. apply Hr. unfold int32_range in *. pose proof (Z.mod_pos_bound a b ltac:(lia)). lia.
  - destruct HR as [HR|(r & HR & Hr)]; [discriminate|]. inversion HR; subst. exfalso. apply Hr, land_range; auto.
  - destruct HR as [HR|(r & HR & Hr)]; [discriminate|]. inversion HR; subst. exfalso. apply Hr, lor_range; auto.
  - unfold int_shl. destruct (_ && _) eqn:E; [|reflexivity]. destruct HR as [HR|(r & HR & Hr)]; [discriminate|]. inversion HR; subst.
    rewrite Z.shiftl_mul_pow2 by lia. rewrite i32_out; auto.
  - unfold int_shr. destruct (_ && _) eqn:E; [|reflexivity]. destruct HR as [HR|(r & HR & Hr)]; [discriminate|]. inversion HR; subst.
    exfalso. apply Hr. unfold int32_range in *. assert (0 < 2 ^ b) by (apply Z.pow_pos_nonneg; lia).
    split; [apply Z.div_le_lower_bound; nia|apply Z.div_lt_upper_bound; nia].
  - exfalso. destruct HR as [HR|(r & HR & Hr)]; [discriminate|]. inversion HR; subst. apply Hr, HBI.
  - exfalso. destruct HR as [HR|(r & HR & Hr)]; [discriminate|]. inversion HR; subst. apply Hr, HBI.
  - exfalso. destruct HR as [HR|(r & HR & Hr)]; [discriminate|]. inversion HR; subst. apply Hr, HBI.
  - exfalso. destruct HR as [HR|(r & HR & Hr)]; [discriminate|]. inversion HR; subst. apply Hr, HBI.
  - exfalso. destruct HR as [HR|(r & HR & Hr)]; [discriminate|]. inversion HR; subst. apply Hr, HBI.
  - exfalso. destruct HR as [HR|(r & HR & Hr)]; [discriminate|]. inversion HR; subst. apply Hr, HBI.
Qed.
Print Assumptions C38_undefined_cases.

(** Negative divisors: whenever the division is not exact, the result does not have the sign of
    the divisor and magnitude below it; it is never the mathematical [a mod b]. *)
Theorem C38_negative_divisor_refuted :
  forall X flist powf size code (v : vm X) a b s,
    can_run code size v I_MOD -> stack v = OInt b :: OInt a :: s ->
    int32_range a -> int32_range b -> b < 0 -> a mod b <> 0 ->
    vm_step flist powf code size v <> Ok (next v 1 (OInt (a mod b) :: s)).
Proof.
  intros X flist powf size code v a b s HC HS Ha Hb Hn HM HE.
  rewrite (step_at flist powf code size v I_MOD (proj1 HC)) in HE. cbn [exec] in HE. unfold op_inc in HE.
  rewrite (mod_int v a b s HS) in HE. unfold int_mod in HE.
  destruct ((b =? 0) || _); [discriminate|].
  pose proof (Z.quot_rem' a b) as E. pose proof (Z.rem_bound_abs a b ltac:(lia)) as HB. rewrite (Z.abs_neq b) in HB by lia.
  assert (HT : forall r, (r1 <- (r0 <- Ok (OInt r) ;; Ok (push (set_stack v s) r0)) ;; inc_pc size r1 done_) = Ok (next v 1 (OInt (a mod b) :: s)) -> r = a mod b).
  { intros r. cbn [bind]. unfold inc_pc. destruct (pc_ok _ _); intro H; inversion H; auto. }
  pose proof (Z.mod_neg_bound a b Hn) as HN.
  destruct (Z.rem a b <? 0) eqn:ER.
  - unfold i32 in HE. destruct (int32_rangeb _); [|discriminate]. apply HT in HE.
    assert (a mod b = Z.rem a b) by (symmetry; apply Z.mod_unique_neg with (q := Z.quot a b); lia). lia.
  - apply HT in HE. lia.
Qed.
Print Assumptions C38_negative_divisor_refuted.
(** -7 mod -3 is -4, and 7 mod -3 is 1. *)
Example C38_negative_divisor_values :
  let code := mem_of [11; 0] in
  match vm_step [] no_pow code 2 (push (push vm0 (OInt (-7))) (OInt (-3))), vm_step [] no_pow code 2 (push (push vm0 (OInt 7)) (OInt (-3))) with
  | Ok v, Ok w => stack v = [OInt (-4)] /\ stack w = [OInt 1]
  | _, _ => False
  end.
Proof. vm_compute. split; reflexivity. Qed.

(** Unary operators. *)
Theorem C38_unary :
  forall X flist powf size code (v : vm X) a s, stack v = OInt a :: s -> int32_range a ->
    (can_run code size v I_UNM -> vm_step flist powf code size v = if a =? - 2 ^ 31 then UB else Ok (next v 1 (OInt (- a) :: s))) /\
    (can_run code size v I_BNOT -> vm_step flist powf code size v = Ok (next v 1 (OInt (- a - 1) :: s))).
Proof.
  intros X flist powf size code v a s HS Ha. split; intro HC.
  - rewrite (step_at flist powf code size v _ (proj1 HC)). cbn [exec].
    destruct (a =? - 2 ^ 31) eqn:E.
    + unfold op_inc, vm_unm, stack_assert. rewrite (stack_z v _ _ HS), HS. rewrite i32_out by (unfold int32_range in *; lia). reflexivity.
    + eapply (op_inc_next code size v _ _ s (@vm_unm X) HC); [reflexivity|]. unfold vm_unm, stack_assert. rewrite (stack_z v _ _ HS), HS.
      rewrite i32_in by (unfold int32_range in *; lia). reflexivity.
  - rewrite (step_at flist powf code size v _ (proj1 HC)). cbn [exec].
    eapply (op_inc_next code size v _ _ s (@vm_bnot X) HC); [reflexivity|]. unfold vm_bnot, stack_assert, type_assert, stack_at.
    rewrite (stack_z v _ _ HS), HS. cbn [Z.leb nth_error]. change (1 <=? 1) with true. cbn [Z.sub Z.to_nat nth_error bind otype]. 
    change (T_INT =? T_INT) with true. cbn [Z.pos_sub]. unfold Z.lnot. rewrite Z.sub_1_r. reflexivity.
Qed.
Print Assumptions C38_unary.

Example C38_nontrivial :
  In I_MOD int_binary /\ int_result I_MOD (-7) 3 = Some 2 /\
  can_run (mem_of [11; 0]) 2 (push (push vm0 (OInt (-7))) (OInt 3)) I_MOD /\
  int_result I_ADD 2147483647 1 = Some 2147483648 /\ ~ int32_range 2147483648 /\
  int_result I_LT (-3) 5 = Some 1 /\ int_result I_DIV (-7) 2 = Some (-3).
Proof. unfold int32_range, can_run, about_to. cbn. repeat split; auto 10; lia. Qed.

(** ** C62: comparison with nil *)

(** Every comparison of nil with something else is true: equality, inequality and order alike. *)
Theorem C62_equal_to_nil_refuted :
  forall X flist powf size code (v : vm X) o x s,
    In o [I_EQ; I_NEQ; I_GT; I_GTE; I_LT; I_LTE] -> can_run code size v o -> x <> ONil ->
    stack v = ONil :: x :: s \/ stack v = x :: ONil :: s ->
    vm_step flist powf code size v = Ok (next v 1 (OInt 1 :: s)).
Proof.
  intros X flist powf size code v o x s HO HC HX HS. rewrite (step_at flist powf code size v _ (proj1 HC)).
  assert (H : exists a b, stack v = b :: a :: s /\ obj_cmp_by (c_strcmp powf) a b = Ok 2).
  { destruct HS as [HS|HS]; [exists x, ONil|exists ONil, x]; split; auto; destruct x; try congruence; reflexivity. }
  destruct H as (a & b & HS' & HC'). cbn [In] in HO.
  repeat (destruct HO as [<-|HO]); [..|destruct HO]; cbn [exec];
    (eapply (op_inc_next code size v _ _ s (fun v => vm_cmp powf v _) HC); [reflexivity|]; rewrite (cmp_any powf v _ a b s _ HS' HC'); reflexivity).
Qed.
Print Assumptions C62_equal_to_nil_refuted.
(** Two nils compare as equal. *)
Theorem C62_nil_equals_nil_partial :
  forall X flist powf size code (v : vm X) s, stack v = ONil :: ONil :: s ->
    (can_run code size v I_EQ -> vm_step flist powf code size v = Ok (next v 1 (OInt 1 :: s))) /\
    (can_run code size v I_NEQ -> vm_step flist powf code size v = Ok (next v 1 (OInt 0 :: s))).
Proof.
  intros X flist powf size code v s HS. split; intro HC; rewrite (step_at flist powf code size v _ (proj1 HC)); cbn [exec];
    (eapply (op_inc_next code size v _ _ s (fun v => vm_cmp powf v _) HC); [reflexivity|]; rewrite (cmp_any powf v _ ONil ONil s _ HS eq_refl); reflexivity).
Qed.
Print Assumptions C62_nil_equals_nil_partial.
Example C62_nontrivial :
  let v := push (push vm0 (OInt 5)) ONil in
  can_run (mem_of [22; 0]) 2 v I_EQ /\ OInt 5 <> ONil /\ stack v = ONil :: OInt 5 :: [].
Proof. unfold can_run, about_to. cbn. repeat split; try lia. discriminate. Qed.

(** ** C43: conditional jumps and logic *)
Lemma holds_truthy o : holds o <-> truthy o = true.
Proof.
  unfold holds. destruct o; cbn; split; try (intros [H1 H2]); try congruence; try (intro; split; congruence).
  - destruct (z =? 0) eqn:E; auto. exfalso. apply H2. f_equal. lia.
  - intro H. split; [congruence|]. intro H'. inversion H'; subst. discriminate.
Qed.

Lemma jump_step X code size (v : vm X) o s (t : bool) : can_run code size v (if t then I_JUMPNZ else I_JUMPZ) -> stack v = o :: s ->
  vm_jumpif code size v t = 
    if Bool.eqb (truthy o) t then
      (if pc_ok size (sign32 (instr_arg code v)) then Ok (goto v (sign32 (instr_arg code v)) s)
       else Ok (set_state (goto v (sign32 (instr_arg code v)) (o :: s)) S_ERROR E_PC))
    else Ok (next v 5 s).
Proof.
  intros ((HR & HA) & H1 & H2) HS. unfold vm_jumpif, inc_pc, get_arg. cbn [v_pc set_pc set_oldpc].
  assert (HL : v_pc v + 5 < size) by (destruct t; exact H2).
  replace (pc_ok size (v_pc v + 1)) with true by (unfold pc_ok; lia).
  replace (pc_ok size (v_pc v + 1 + 4)) with true by (unfold pc_ok; lia).
  assert (HN : exists rest, v_stacks v = (o :: s) :: rest).
  { unfold stack in HS. destruct (v_stacks v) as [|st rest]; [discriminate|]. cbn in HS. subst. eauto. }
  destruct HN as (rest & HN). unfold stack_assert, stack_at. unfold set_oldpc, set_pc, stack.
  cbn [v_stacks v_pc v_oldpc v_lsymts v_gsyms v_heap v_str v_swstk v_state v_error v_ext]. rewrite HN. cbn [hd].
  replace (zlen (o :: s) - 1 <? 0) with false by (unfold zlen; cbn [length]; lia). cbn [Z.leb Z.compare Pos.compare Pos.compare_cont Z.sub Z.add Z.opp Z.pos_sub Z.to_nat nth_error bind].
  replace (word code (v_pc v + 1)) with (instr_arg code v)
    by (unfold word, instr_arg; replace (v_pc v + 1 + 1) with (v_pc v + 2) by lia; replace (v_pc v + 1 + 2) with (v_pc v + 3) by lia;
        replace (v_pc v + 1 + 3) with (v_pc v + 4) by lia; reflexivity).
  destruct (Bool.eqb (truthy o) t).
  - unfold assert_pc. cbn [v_pc]. destruct (pc_ok size (sign32 (instr_arg code v))).
    + cbn [v_state]. rewrite HR. cbn [is_ready]. unfold vm_pop, stack, dpop, goto, set_stack, set_stacks. cbn. rewrite HN, HR. reflexivity.
    + cbn [err set_state v_state is_ready]. unfold set_state, goto. cbn. rewrite HN. reflexivity.
  - unfold vm_pop, stack, dpop, next, set_stack, set_stacks. cbn. rewrite HN. do 2 f_equal. lia.
Qed.

(** A jump is taken exactly on the truth value it waits for; the tested value is popped. *)
Theorem C43_jumps_follow_truth :
  forall X flist powf size code (v : vm X) o s,
    stack v = o :: s -> 0 <= sign32 (instr_arg code v) < size ->
    (can_run code size v I_JUMPZ ->
       (holds o -> vm_step flist powf code size v = Ok (next v 5 s)) /\
       (~ holds o -> vm_step flist powf code size v = Ok (goto v (sign32 (instr_arg code v)) s))) /\
    (can_run code size v I_JUMPNZ ->
       (holds o -> vm_step flist powf code size v = Ok (goto v (sign32 (instr_arg code v)) s)) /\
       (~ holds o -> vm_step flist powf code size v = Ok (next v 5 s))).
Proof.
  intros X flist powf size code v o s HS HT.
  assert (HP : pc_ok size (sign32 (instr_arg code v)) = true) by (unfold pc_ok; lia).
  split; intro HC; rewrite (step_at flist powf code size v _ (proj1 HC)); cbn [exec].
  - rewrite (jump_step X code size v o s false HC HS), HP. split; rewrite holds_truthy; intro H.
    + rewrite H. reflexivity.
    + destruct (truthy o); [congruence|reflexivity].
  - rewrite (jump_step X code size v o s true HC HS), HP. split; rewrite holds_truthy; intro H.
    + rewrite H. reflexivity.
    + destruct (truthy o); [congruence|reflexivity].
Qed.
Print Assumptions C43_jumps_follow_truth.

(** Jumps out of the bytecode are errors. *)
Theorem C43_jump_outside :
  forall X flist powf size code (v : vm X) o s,
    stack v = o :: s -> ~ 0 <= sign32 (instr_arg code v) < size ->
    (can_run code size v I_JUMPZ /\ ~ holds o) \/ (can_run code size v I_JUMPNZ /\ holds o) \/ can_run code size v I_JUMP ->
    exists v', vm_step flist powf code size v = Ok v' /\ v_state v' = S_ERROR /\ v_error v' = E_PC.
Proof.
  intros X flist powf size code v o s HS HT HC.
  assert (HP : pc_ok size (sign32 (instr_arg code v)) = false) by (unfold pc_ok; lia).
  destruct HC as [[HC HO]|[[HC HO]|HC]]; rewrite (step_at flist powf code size v _ (proj1 HC)); cbn [exec].
  - rewrite (jump_step X code size v o s false HC HS), HP. rewrite holds_truthy in HO. destruct (truthy o); [congruence|].
    eexists. split; [reflexivity|]. split; reflexivity.
  - rewrite (jump_step X code size v o s true HC HS), HP. rewrite holds_truthy in HO. rewrite HO. eexists. split; [reflexivity|]. split; reflexivity.
  - destruct HC as ((HR & HA) & H1 & H2). unfold instr_len in H2. cbn in H2. unfold inc_pc, get_arg. cbn [v_pc set_pc set_oldpc].
    replace (pc_ok size (v_pc v + 1)) with true by (unfold pc_ok; lia).
    replace (pc_ok size (v_pc v + 1 + 4)) with true by (unfold pc_ok; lia).
    replace (word code (v_pc v + 1)) with (instr_arg code v)
      by (unfold word, instr_arg; replace (v_pc v + 1 + 1) with (v_pc v + 2) by lia; replace (v_pc v + 1 + 2) with (v_pc v + 3) by lia;
          replace (v_pc v + 1 + 3) with (v_pc v + 4) by lia; reflexivity).
    unfold assert_pc. cbn [v_pc set_pc set_oldpc]. rewrite HP. eexists. split; [reflexivity|]. split; reflexivity.
Qed.
Print Assumptions C43_jump_outside.

(** land, lor and lnot use the same notion of truth and yield 1 or 0. *)
Theorem C43_logic_follows_truth :
  forall X flist powf size code (v : vm X) a b s,
    (stack v = b :: a :: s -> can_run code size v I_LAND ->
       exists r, vm_step flist powf code size v = Ok (next v 1 (OInt r :: s)) /\ (r = 1 \/ r = 0) /\ (r = 1 <-> holds a /\ holds b)) /\
    (stack v = b :: a :: s -> can_run code size v I_LOR ->
       exists r, vm_step flist powf code size v = Ok (next v 1 (OInt r :: s)) /\ (r = 1 \/ r = 0) /\ (r = 1 <-> holds a \/ holds b)) /\
    (stack v = a :: s -> can_run code size v I_LNOT ->
       exists r, vm_step flist powf code size v = Ok (next v 1 (OInt r :: s)) /\ (r = 1 \/ r = 0) /\ (r = 1 <-> ~ holds a)).
Proof.
  intros X flist powf size code v a b s. split; [|split]; intros HS HC; rewrite (step_at flist powf code size v _ (proj1 HC)); cbn [exec].
  - exists (if truthy a && truthy b then 1 else 0). split.
    + eapply (op_inc_next code size v _ _ s (fun v => vm_logic v andb) HC); [reflexivity|].
      unfold vm_logic, stack_assert. rewrite (stack_z2 v _ _ _ HS), HS. reflexivity.
    + rewrite !holds_truthy. destruct (truthy a), (truthy b); cbn; split; auto; split; try tauto; try (intros; lia); intros [? ?]; discriminate.
  - exists (if truthy a || truthy b then 1 else 0). split.
    + eapply (op_inc_next code size v _ _ s (fun v => vm_logic v orb) HC); [reflexivity|].
      unfold vm_logic, stack_assert. rewrite (stack_z2 v _ _ _ HS), HS. reflexivity.
    + rewrite !holds_truthy. destruct (truthy a), (truthy b); cbn; split; auto; split; try tauto; try (intros; lia); intros [? | ?]; discriminate.
  - exists (if truthy a then 0 else 1). split.
    + eapply (op_inc_next code size v _ _ s (@vm_lnot X) HC); [reflexivity|].
      unfold vm_lnot, stack_assert. rewrite (stack_z v _ _ HS), HS. destruct (truthy a); reflexivity.
    + rewrite !holds_truthy. destruct (truthy a); cbn; split; auto; split; try congruence; try lia.
Qed.
Print Assumptions C43_logic_follows_truth.
Example C43_nontrivial :
  holds (OFloat f_zero) /\ holds (OTab 0) /\ ~ holds (OInt 0) /\
  let code := mem_of [45; 7; 0; 0; 0; 0; 0; 0] in
  can_run code 8 (push vm0 (OInt 0)) I_JUMPZ /\ sign32 (instr_arg code (push vm0 (OInt 0))) = 7.
Proof. unfold holds, can_run, about_to. cbn. repeat split; try congruence; try lia. intros [_ H]. congruence. Qed.

(** ** C65: mod of operands of different types *)

(** -1.0 mod the integer 2 gives -1.0 although -1.0 mod 2.0 gives 1.0: the code adds the bits of
    the integer read as a float. *)
Theorem C65_mixed_mod_refuted :
  exists (a : f32) (b : Z), 0 < b /\
    forall X flist powf size code (v w : vm X) s,
      can_run code size v I_MOD -> can_run code size w I_MOD ->
      stack v = OInt b :: OFloat a :: s -> stack w = OFloat (f_of_Z b) :: OFloat a :: s ->
      vm_step flist powf code size v = Ok (next v 1 (OFloat (f_of_Z (-1)) :: s)) /\
      vm_step flist powf code size w = Ok (next w 1 (OFloat (f_of_Z 1) :: s)).
Proof.
  exists (f_of_Z (-1)), 2. split; [lia|]. intros X flist powf size code v w s HV HW HSv HSw. split.
  - rewrite (step_at flist powf code size v _ (proj1 HV)). cbn [exec]. eapply (op_inc_next code size v _ _ s (@vm_mod X) HV); [reflexivity|].
    unfold vm_mod, stack_assert. rewrite (stack_z2 v _ _ _ HSv), HSv. reflexivity.
  - rewrite (step_at flist powf code size w _ (proj1 HW)). cbn [exec]. eapply (op_inc_next code size w _ _ s (@vm_mod X) HW); [reflexivity|].
    unfold vm_mod, stack_assert. rewrite (stack_z2 w _ _ _ HSw), HSw. reflexivity.
Qed.
Print Assumptions C65_mixed_mod_refuted.
