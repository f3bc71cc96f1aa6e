(** The functions of the standard library do what StdSpec.v says. *)
From Coq Require Import String.
From Verif Require Import Base ListLemmas Float FloatProofs Dict PDict Strman StrmanSpec StrmanProofs Obj ObjSpec ObjProofs Instr Vm VmSpec VmProofs PropsVmData Text CFunSpec CFunProofs Strlib PropsStrlib
  TableLib TableLibSpec TableLibProofs PropsTableLib Mathlib MathSpec PropsMath Source CompileSpec GcSpec HostSpec PropsHost StdSpec.
Local Open Scope Z_scope.
Local Open Scope list_scope.

Definition means {X} (f : vm X -> res (vm X)) (m : list obj -> sst X -> out (obj * sst X)) : Prop :=
  forall (v : vm X) (st : sst X) args ra s rest L sm0, v_state v = S_READY -> v_error v = E_NONE -> v_stacks v = [] :: (OInt ra :: s) :: rest -> v_lsymts v = mkLs (map Some args) false :: L ->
    v_heap v = s_heap st -> v_str v = s_str st -> v_ext v = s_ext st -> keeping sm0 (v_str v) -> c_done v st ra s rest L sm0 (f v) (m args st).

Lemma parse_number_nonneg t neg a : parse_number t = Some (neg, a) -> 0 <= a.
Proof.
  unfold parse_number. destruct (match drop_while isspace t with [] => _ | _ => _ end) as [n u]. destruct (take_while isdigit u) as [|d r] eqn:E; [discriminate|]. intro H. injection H as <- <-.
  assert (F : Forall (fun c => isdigit c = true) (d :: r)). { rewrite <- E. clear. induction u as [|c u IH]; cbn [take_while]; [constructor|]. destruct (isdigit c) eqn:Ec; constructor; auto. }
  exact (proj2 (proj2 (proj2 (numeral_digits _ _ (digits_numeral (d :: r) ltac:(discriminate) F))))).
Qed.
Section Ok.
Context {X : Type}.
Variables (v : vm X) (st : sst X) (args : list obj) (ra : Z) (s : list obj) (rest : list (list obj)) (L : list lsyms) (sm0 : strman).
Hypotheses (HR : v_state v = S_READY) (HE : v_error v = E_NONE) (HS : v_stacks v = [] :: (OInt ra :: s) :: rest) (HL : v_lsymts v = mkLs (map Some args) false :: L)
  (H1 : v_heap v = s_heap st) (H2 : v_str v = s_str st) (H3 : v_ext v = s_ext st) (HK : keeping sm0 (v_str v)).
Notation c_done := (c_done v st ra s rest L sm0).
Lemma c_one (K : vm X -> res (vm X)) m : (forall x, c_done (K (push v x)) (m x st)) -> c_done (lnum_assert v 1 (v1 <- vm_lload v 1 ;; K v1)) (one_arg m args st).
Proof.
  intro H. unfold lnum_assert. rewrite (lnum_ok v args L HL). cbn [bind]. unfold one_arg. destruct args as [|a [|x [|y r]]] eqn:EA.
  - apply done_err. - apply done_err.
  - change (zlen [a; x] - 1 =? 1) with true. cbv iota. rewrite (lload_ok v [a; x] L 1 x HL ltac:(lia) eq_refl). cbn [bind]. apply H.
  - replace (zlen (a :: x :: y :: r) - 1 =? 1) with false by (unfold zlen; cbn [length]; lia). apply done_err.
Qed.
Lemma c_two (K : vm X -> res (vm X)) m : (forall a x y, args = [a; x; y] -> c_done (K (push v x)) (m x y st)) -> c_done (lnum_assert v 2 (v1 <- vm_lload v 1 ;; K v1)) (two_args m args st).
Proof.
  intro H. unfold lnum_assert. rewrite (lnum_ok v args L HL). cbn [bind]. unfold two_args. destruct args as [|a [|x [|y [|z r]]]] eqn:EA.
  - apply done_err. - apply done_err. - apply done_err.
  - change (zlen [a; x; y] - 1 =? 2) with true. cbv iota. rewrite (lload_ok v [a; x; y] L 1 x HL ltac:(lia) eq_refl). cbn [bind]. eapply H. reflexivity.
  - replace (zlen (a :: x :: y :: z :: r) - 1 =? 2) with false by (unfold zlen; cbn [length]; lia). apply done_err.
Qed.
Lemma c_ret w t r : w = set_stack v t -> c_done (vm_ret1 (push w r)) (Done (r, st)).
Proof. intro E. eapply done_ret; eauto. Qed.
Lemma pop_push x : vm_pop (push v x) = set_stack v []. Proof. unfold vm_pop, push, stack, set_stack, set_stacks. cbn. rewrite HS. reflexivity. Qed.
Lemma push1 x : push v x = set_stack v [x]. Proof. unfold push, stack. rewrite HS. reflexivity. Qed.
Lemma push2 x y : push (push v x) y = set_stack v [y; x]. Proof. unfold push, stack. cbn. rewrite HS. reflexivity. Qed.

Lemma c_size : c_done (obj_size v) (one_arg size_of args st).
Proof.
  apply c_one. intro x. unfold type_assert. rewrite top_push. cbn [bind]. destruct x as [| | | |addr| |]; try solve [apply done_err]. cbn [size_of].
  change (otype (OTab addr) =? T_TABLE) with true. cbv iota. destruct (addr <? 0) eqn:EA; [exact I|]. unfold tab_at. replace (0 <=? addr) with true by lia.
  change (v_heap (push v (OTab addr))) with (v_heap v). rewrite H1. destruct (nth_error _ _) as [t|]; [|exact I]. cbn [bind]. destruct (zlen (pentries t) <? 2 ^ 31) eqn:EZ; [|exact I].
  change (psize t) with (zlen (pentries t)). rewrite sign32_small by (unfold zlen in *; lia). eapply c_ret. apply pop_push.
Qed.
Lemma c_type : c_done (obj_type v) (one_arg (fun x st => new_string st (bs (type_name x))) args st).
Proof.
  apply c_one. intro x. rewrite top_push. cbn [bind]. replace (type_desc x) with (bs (type_name x)) by (destruct x; reflexivity). eapply done_new; eauto. apply pop_push.
Qed.
Lemma c_int : c_done (obj_int v) (one_arg (fun x st => match x with OFloat f => obind (float_val (fun u => Z.quot u (2 ^ 149)) f) (fun r => Done (r, st)) | _ => Fail E_TYPE end) args st).
Proof.
  apply c_one. intro x. unfold type_assert. rewrite top_push. cbn [bind]. destruct x as [| |f| | | |]; try solve [apply done_err]. change (otype (OFloat f) =? T_FLOAT) with true. cbv iota. rewrite ?top_push. cbn [bind].
  unfold float_val. destruct (valid_f32 f && finite_f32 f) eqn:EV; [|exact I]. apply andb_prop in EV as [EV EF]. unfold int_if. destruct (_ && _) eqn:ER; [|exact I]. cbn [obind].
  unfold f_to_int32. rewrite (trunc_val f EV EF). replace (int32_rangeb _) with true by (unfold int32_rangeb; lia). cbn [bind]. eapply c_ret. apply pop_push.
Qed.
Lemma c_float : c_done (obj_float v) (one_arg (fun x st => match x with OInt i => Done (OFloat (f_of_Z i), st) | _ => Fail E_TYPE end) args st).
Proof.
  apply c_one. intro x. unfold type_assert. rewrite top_push. cbn [bind]. destruct x as [|z| | | | |]; try solve [apply done_err]. change (otype (OInt z) =? T_INT) with true. cbv iota. unfold top_int. rewrite ?top_push. cbn [bind]. eapply c_ret. apply pop_push.
Qed.
Lemma c_is ty n : (forall x, (otype x =? ty) = String.eqb (type_name x) n) -> c_done (closure_is ty v) (is_a n args st).
Proof.
  intro HT. apply c_one. intro x. rewrite top_push. cbn [bind]. rewrite HT. replace (of_bool _) with (OInt (if String.eqb (type_name x) n then 1 else 0)) by (destruct (String.eqb _ _); reflexivity). eapply c_ret. apply push1.
Qed.
Lemma c_number onf oni mf mi : (forall f, match mf f with Done o => onf f = Ok o | Unspec => True | _ => False end) -> (forall i, match mi i with Done o => oni i = Ok o | Unspec => True | _ => False end) ->
  c_done (one_number v onf oni) (number mi mf args st).
Proof.
  intros HF HI. apply c_one. intro x. rewrite top_push. cbn [bind]. destruct x as [|z|f| | | |]; try solve [apply done_err].
  - specialize (HI z). destruct (mi z); cbn [obind]; try contradiction; [|exact I]. rewrite HI. cbn [bind]. eapply c_ret. apply push1.
  - specialize (HF f). destruct (mf f); cbn [obind]; try contradiction; [|exact I]. rewrite HF. cbn [bind]. eapply c_ret. apply push1.
Qed.
Lemma c_pick c first : c_done (math_pick (c_cmp c) first v) (pick c first args st).
Proof.
  apply c_two. intros a x y EA. rewrite top_push. cbn [bind]. rewrite (lload_ok (push v x) args L 2 y HL ltac:(lia) ltac:(rewrite EA; reflexivity)). cbn [bind]. rewrite top_push. cbn [bind].
  destruct (obj_cmp_by _ x y); cbn [bind]; try exact I. eapply c_ret. apply push2.
Qed.
Lemma c_atan_ok c : c_done (math_atan (c_atan2 c) v) (atan c args st).
Proof.
  apply c_two. intros a x y EA. rewrite top_push. cbn [bind]. unfold to_float at 1, float_of.
  assert (H : forall w f, w = push v x -> c_done (v2 <- vm_lload w 2 ;; b <- stack_at v2 1 ;; to_float b (fun x0 => vm_ret1 (push v2 (OFloat (c_atan2 c f x0)))) (Ok (err v2 E_TYPE)))
     match match y with OFloat g => Some g | OInt i => Some (f_of_Z i) | _ => None end with Some b => Done (OFloat (c_atan2 c f b), st) | None => Fail E_TYPE end).
  { intros w f ->. rewrite (lload_ok (push v x) args L 2 y HL ltac:(lia) ltac:(rewrite EA; reflexivity)). cbn [bind]. rewrite top_push. cbn [bind]. destruct y; cbn [to_float]; try solve [apply done_err]; eapply c_ret; apply push2. }
  destruct x; try solve [apply done_err]; apply H; reflexivity.
Qed.
Lemma c_tostring c : c_done (string_tostring (c_fmt c) (c_storage c) v) (tostring c args st).
Proof.
  apply c_one. intro x. rewrite top_push. cbn [bind]. destruct x; try exact I; cbv zeta iota; rewrite top_push; cbn [bind]; eapply done_new; eauto; apply push1.
Qed.
Lemma c_toint : c_done (string_toint v) (toint args st).
Proof.
  apply c_one. intro x. unfold type_assert. rewrite top_push. cbn [bind]. destruct x as [| | |i t| | |]; try solve [apply done_err]. change (otype (OStr i t) =? T_STRING) with true. cbv iota. unfold top_str. rewrite ?top_push. cbn [bind].
  destruct (parse_number t) as [[neg a]|] eqn:EP; [|eapply c_ret; apply push1]. destruct (a <? 2 ^ 31) eqn:EA; [|exact I].
  assert (HA : 0 <= a). { pose proof (parse_number_nonneg t neg a EP). lia. }
  assert (ES : strtol t = if neg then - a else a) by (unfold strtol; rewrite EP; destruct neg; lia). rewrite ES. rewrite sign32_id by (unfold int32_range; destruct neg; lia).
  replace (if neg then 2 ^ 63 <? a else 2 ^ 63 <=? a) with false by (destruct neg; lia). cbn [andb]. eapply c_ret. apply push1.
Qed.
Lemma c_tofloat c : c_done (string_tofloat (c_strtof c) v) (tofloat c args st).
Proof.
  apply c_one. intro x. unfold type_assert. rewrite top_push. cbn [bind]. destruct x as [| | |i t| | |]; try solve [apply done_err]. change (otype (OStr i t) =? T_STRING) with true. cbv iota. unfold top_str. rewrite ?top_push. cbn [bind].
  destruct (c_strtof c t) as [[f []]|]; [exact I| |]; eapply c_ret; apply push1.
Qed.
End Ok.

Lemma float_val_ok (g : Z -> Z) (h : f32 -> option Z) : (forall f, valid_f32 f = true -> finite_f32 f = true -> h f = Some (g (fval f))) ->
  forall f, match float_val g f with Done o => (z <- fits (h f) ;; Ok (OInt z)) = Ok o | Unspec => True | _ => False end.
Proof.
  intros H f. unfold float_val. destruct (valid_f32 f && finite_f32 f) eqn:EV; [|exact I]. apply andb_prop in EV as [EV EF]. unfold int_if. destruct (_ && _) eqn:ER; [|exact I].
  rewrite (H f EV EF). unfold fits, int32_rangeb. replace (_ && _) with true by lia. reflexivity.
Qed.
Lemma std_means X c : Forall2 (fun (e : string * (vm X -> res (vm X))) m => fst e = fst m /\ means (snd e) (snd m)) (std_list c) (std_meanings c).
Proof.
  unfold std_list, std_meanings. apply Forall2_app.
  - repeat (constructor; [split; [reflexivity|]; cbn [snd]; intros v st args ra s rest L sm0 HR HE HS HL H1 H2 H3 HK|]); [..|constructor].
    + apply (c_length v st args); auto. + apply (c_sub v st args); auto. + apply (c_concat v st args); auto.
    + apply c_tostring; auto. + apply c_toint; auto. + apply c_tofloat; auto. + apply c_atan_ok; auto.
    + apply c_size; auto. + apply c_type; auto. + apply c_int; auto. + apply c_float; auto.
    + apply c_is; auto; intros []; reflexivity. + apply c_is; auto; intros []; reflexivity. + apply c_is; auto; intros []; reflexivity. + apply c_is; auto; intros []; reflexivity.
    + apply c_is; auto; intros []; reflexivity. + apply c_is; auto; intros []; reflexivity. + apply c_is; auto; intros []; reflexivity.
    + apply c_number; auto. intro i. destruct (i =? - 2 ^ 31); [exact I|reflexivity].
    + apply c_number; auto. apply float_val_ok, f_floor_val.
    + apply c_number; auto. apply float_val_ok, f_ceil_val.
    + apply c_number; auto. apply float_val_ok, f_round_val.
    + apply c_pick; auto. + apply c_pick; auto.
  - generalize ["log"; "log2"; "log10"; "exp"; "sqrt"; "sin"; "cos"; "tan"; "asin"; "acos"]%string. induction l as [|n l IH]; constructor; [|exact IH]. split; [reflexivity|]. cbn [snd]. intros v st args ra s rest L sm0 HR HE HS HL H1 H2 H3 HK. apply c_number; auto.
Qed.
(** C functions registered under numbers, and meanings for them, name by name. *)
Lemma found_ok X fid (flist : list (vm X -> res (vm X))) sm0 lf lm :
  (forall n f, In (n, f) lf -> 0 <= fid n < 2 ^ 31 /\ nth_error flist (Z.to_nat (fid n)) = Some f) ->
  Forall2 (fun (e : string * (vm X -> res (vm X))) m => fst e = fst m /\ means (snd e) (snd m)) lf lm ->
  c_functions flist (keeping sm0) (fun i args st => match find (fun e => fid (fst e) =? i) lm with Some e => snd e args st | None => Unspec end).
Proof.
  intros HG HM. split.
  - intros i args st Hi. destruct (find _ lm) as [e|] eqn:E; [|reflexivity]. exfalso. apply find_some in E as [E1 E2].
    assert (HF : exists f, In (fst e, f) lf). { clear - HM E1. induction HM as [|a b lf lm [A B] _ IH]; [destruct E1|]. destruct E1 as [->|E1]; [exists (snd a); left; rewrite <- A; destruct a; reflexivity|]. destruct (IH E1) as (f & Hf). exists f. right. exact Hf. }
    destruct HF as (f & Hf). destruct (HG _ _ Hf) as [G1 G2]. apply Hi. assert (nth_error flist (Z.to_nat (fid (fst e))) <> None) by congruence. apply nth_error_Some in H. unfold zlen. lia.
  - intros i f args st v ra s rest L Hi Hf HR HE HS HL H1 H2 H3 HK. destruct (find _ lm) as [e|] eqn:E; [|exact I]. apply find_some in E as [E1 E2].
    assert (HF : exists f, In (fst e, f) lf /\ means f (snd e)). { clear - HM E1. induction HM as [|a b lf lm [A B] _ IH]; [destruct E1|]. destruct E1 as [->|E1]; [exists (snd a); split; [left; rewrite <- A; destruct a; reflexivity|exact B]|]. destruct (IH E1) as (f & Hf & Hm). exists f. split; [right; exact Hf|exact Hm]. }
    destruct HF as (f' & Hf' & Hm). destruct (HG _ _ Hf') as [G1 G2]. replace i with (fid (fst e)) in Hf by lia. assert (f' = f) by congruence. subst f'.
    exact (Hm v st args ra s rest L sm0 HR HE HS HL H1 H2 H3 HK).
Qed.
Theorem std_ok X c fid (flist : list (vm X -> res (vm X))) sm0 : std_registered c fid flist -> c_functions flist (keeping sm0) (std_cfun c fid).
Proof. intro HG. exact (found_ok X fid flist sm0 _ _ HG (std_means X c)). Qed.
