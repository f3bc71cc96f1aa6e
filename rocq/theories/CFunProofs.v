(** Lemmas about C functions called from scripts. *)
From Verif Require Import Base ListLemmas Float Dict PDict PDictKeys Strman StrmanSpec StrmanProofs Obj Instr Vm VmSpec Strlib CFunSpec.

Lemma good_inv sm : good_strings sm -> exists M, SInv sm M /\ SIdle sm.
Proof.
  intros [(ops & outs & E & H) _]. destruct SInv_new as [HI HD].
  destruct (sm_run_ok ops _ _ HI HD H) as (sm' & outs' & M' & E' & _ & HI' & HD').
  rewrite E in E'. inversion E'. subst. eauto.
Qed.
Lemma sm_run_snoc sm ops o : forall sm1 outs, sm_run sm ops = Ok (sm1, outs) ->
  sm_run sm (ops ++ [o]) = ('(sm2, x) <- sm_step sm1 o ;; Ok (sm2, outs ++ [x])).
Proof.
  revert sm. induction ops as [|o1 ops IH]; intros sm sm1 outs H; cbn [sm_run app] in *.
  - inversion H; subst. destruct (sm_step sm1 o) as [[sm2 x]| | |]; reflexivity.
  - destruct (sm_step sm o1) as [[sm2 x]| | |]; cbn [bind] in *; try discriminate.
    destruct (sm_run sm2 ops) as [[sm3 xs]| | |] eqn:E; cbn [bind] in *; try discriminate. inversion H; subst.
    rewrite (IH _ _ _ E). destruct (sm_step sm1 o) as [[sm4 y]| | |]; reflexivity.
Qed.
Lemma smhist_snoc sm ops o : forall sm1 outs, sm_run sm ops = Ok (sm1, outs) -> smhist_ok sm ops -> smop_ok sm1 o -> smhist_ok sm (ops ++ [o]).
Proof.
  revert sm. induction ops as [|o1 ops IH]; intros sm sm1 outs H HO HN; cbn [sm_run app smhist_ok] in *.
  - inversion H; subst. split; auto. destruct (sm_step sm1 o) as [[? ?]| | |]; auto.
  - destruct HO as [HO HR]. split; auto. destruct (sm_step sm o1) as [[sm2 x]| | |]; cbn [bind] in *; try discriminate.
    destruct (sm_run sm2 ops) as [[sm3 xs]| | |] eqn:E; cbn [bind] in *; try discriminate. inversion H; subst. eauto.
Qed.
(** Registering a string of a VM in good state. *)
Lemma register_good sm s p : good_strings sm ->
  exists sm' id, sm_register sm_fuel sm s p = Ok (sm', id) /\ 0 <= id < 65536 /\ sm_get sm' id = Some s /\
    (forall i t, 0 <= i < 65536 -> sm_get sm i = Some t -> sm_get sm' i = Some t) /\
    (exists ops outs, sm_run sm_new ops = Ok (sm', outs) /\ smhist_ok sm_new ops).
Proof.
  intro G. destruct (good_inv _ G) as (M & HI & HD). destruct G as [(ops & outs & E & H) HL].
  destruct (register_ok sm M s p HI HD HL) as (sm' & id & M' & ER & (id' & EI & HR & HS) & HI' & HD').
  inversion EI; subst id'. exists sm', id. split; [auto|]. split; [auto|].
  assert (HM : exists q, M' s = Some (id, q)).
  { destruct (M s) as [[i q]|]; destruct HS as [_ HM]; rewrite HM, lm_set_same; eauto. }
  assert (HK : forall t i q, M t = Some (i, q) -> exists q', M' t = Some (i, q')).
  { intros t i q Ht. destruct (M s) as [[i0 q0]|] eqn:EM; destruct HS as [HS1 HM']; rewrite HM'; unfold lm_set; destruct (str_dec t s); subst; eauto; rewrite EM in Ht; inversion Ht; subst; eauto. }
  assert (HG : forall M1 sm1, SInv sm1 M1 -> forall i t, 0 <= i < 65536 -> (sm_get sm1 i = Some t <-> exists q, M1 t = Some (i, q))).
  { intros M1 sm1 H1 i t Hi. destruct (get_ok sm1 M1 i H1 Hi) as [(r & ER1 & HH) _]. inversion ER1; subst. apply HH. }
  split; [apply (HG _ _ HI'); auto|]. split.
  - intros i t Hi Ht. apply (HG _ _ HI) in Ht as [q Ht]; auto. apply (HG _ _ HI'); auto. eauto.
  - exists (ops ++ [SmReg s p]). eexists. split.
    + rewrite (sm_run_snoc _ _ _ _ _ E). cbn [sm_step]. rewrite ER. reflexivity.
    + eapply smhist_snoc; eauto.
Qed.

Section C.
Context {X : Type}.
Implicit Types v : vm X.

Lemma ret1_ok v r t ra s rest l L : v_stacks v = (r :: t) :: (OInt ra :: s) :: rest -> v_lsymts v = mkLs l false :: L ->
  vm_ret1 v = Ok (mkVm ra (v_pc v) ((r :: s) :: rest) L (v_gsyms v) (v_heap v) (v_str v) (v_swstk v) (v_state v) (v_error v) (v_ext v)).
Proof.
  intros HS HL. unfold vm_ret1, pop_lsyms. rewrite HL. cbn [bind ls_swarm]. unfold stack_assert, stack. cbn [set_lsymts v_stacks].
  rewrite HS. cbn [hd]. replace (zlen (r :: t) - 1 <? 0) with false by (unfold zlen; cbn [length]; lia).
  unfold pop_stacks. cbn [set_lsymts v_stacks]. rewrite HS. cbn [bind]. unfold ret_to, stack_assert, type_assert, stack_at, stack. cbn [set_stacks v_stacks hd].
  replace (zlen (OInt ra :: s) - 1 <? 0) with false by (unfold zlen; cbn [length]; lia). cbn [Z.sub]. cbn. reflexivity.
Qed.
Lemma ret0_ok v t ra s rest l L : v_stacks v = t :: (OInt ra :: s) :: rest -> v_lsymts v = mkLs l false :: L ->
  vm_ret0 v = Ok (mkVm ra (v_pc v) ((ONil :: s) :: rest) L (v_gsyms v) (v_heap v) (v_str v) (v_swstk v) (v_state v) (v_error v) (v_ext v)).
Proof.
  intros HS HL. unfold vm_ret0, pop_lsyms. rewrite HL. cbn [bind ls_swarm].
  unfold pop_stacks. cbn [set_lsymts v_stacks]. rewrite HS. cbn [bind]. unfold ret_to, stack_assert, type_assert, stack_at, stack. cbn [set_stacks v_stacks hd].
  replace (zlen (OInt ra :: s) - 1 <? 0) with false by (unfold zlen; cbn [length]; lia). cbn. reflexivity.
Qed.
Lemma lload_ok v l L i o : v_lsymts v = mkLs (map Some l) false :: L -> 0 <= i -> nth_error l (Z.to_nat i) = Some o -> vm_lload v i = Ok (push v o).
Proof.
  intros HL H0 HN. unfold vm_lload. rewrite HL. cbn [ls_syms].
  assert (HB : (Z.to_nat i < length l)%nat) by (apply nth_error_Some; congruence).
  replace (zlen (map Some l) - 1 <? i) with false by (unfold zlen; rewrite map_length; lia).
  rewrite nth_error_map, HN. reflexivity.
Qed.
Lemma lnum_ok v l L : v_lsymts v = mkLs (map Some l) false :: L -> lnum v = Ok (zlen l - 1).
Proof. intro H. unfold lnum. rewrite H. cbn [ls_syms]. unfold zlen. rewrite map_length. reflexivity. Qed.
Lemma top_push v o : stack_at (push v o) 1 = Ok o. Proof. reflexivity. Qed.

Lemma push_new_ok v t : good_strings (v_str v) ->
  exists sm id, push_new_string v t = Ok (push (set_str v sm) (OStr id t)) /\ 0 <= id < 65536 /\ sm_get sm id = Some t /\
   (forall i u, 0 <= i < 65536 -> sm_get (v_str v) i = Some u -> sm_get sm i = Some u) /\
   (exists ops outs, sm_run sm_new ops = Ok (sm, outs) /\ smhist_ok sm_new ops).
Proof.
  intro G. destruct (register_good _ t false G) as (sm & id & E & Hi & HG & HK & HO). exists sm, id. unfold push_new_string. rewrite E. cbn [bind].
  split; auto. unfold vm_pushs. rewrite wrap16_id by auto. cbn [set_str v_str]. rewrite HG. reflexivity.
Qed.
End C.

(** ** Functions that end their frame as they should (c_function_ok) *)
From Verif Require Import VmProofs.
Section Ends.
Context {X : Type}.
Implicit Types v : vm X.
Variables (ra : Z) (s : list obj) (rest : list (list obj)) (L : list lsyms).
Definition within v : Prop := (exists st, v_stacks v = st :: (OInt ra :: s) :: rest) /\ exists ls, v_lsymts v = ls :: L.
Definition ends (r : res (vm X)) : Prop :=
  forall v', r = Ok v' -> v_state v' = S_READY -> exists x, v_stacks v' = (x :: s) :: rest /\ v_lsymts v' = L /\ v_pc v' = ra.

Lemma ends_ret1 v : within v -> ends (vm_ret1 v).
Proof.
  intros [[st HS] [ls HL]] v' H HR. apply ret1_inv in H as (r & t & ra' & s' & rest' & ls' & A & B & C & D); auto.
  rewrite HS in A. inversion A; subst. rewrite HL in B. inversion B. eauto.
Qed.
Lemma ends_ret0 v : within v -> ends (vm_ret0 v).
Proof.
  intros [[st HS] [ls HL]] v' H HR. apply ret0_inv in H as (t & ra' & s' & rest' & ls' & A & B & C & D); auto.
  rewrite HS in A. inversion A; subst. rewrite HL in B. inversion B. eauto.
Qed.
Lemma ends_err v e : ends (Ok (err v e)).
Proof. intros v' H HR. inversion H; subst. discriminate. Qed.
Lemma ends_bind {A} (e : res A) f : (forall x, e = Ok x -> ends (f x)) -> ends (bind e f).
Proof. intros H v' E. destruct e; cbn [bind] in E; try discriminate. eapply H; eauto. Qed.
Lemma ends_ub : ends UB. Proof. intros v' H. discriminate. Qed.
Lemma ends_type v i t k : ends k -> ends (type_assert v i t k).
Proof. intro H. apply ends_bind. intros o _. destruct (_ =? _); auto. apply ends_err. Qed.
Lemma ends_stack v i k : ends k -> ends (stack_assert v i k).
Proof. intro H. unfold stack_assert. destruct (_ <? _); auto. apply ends_err. Qed.
Lemma ends_lnum v i k : ends k -> ends (lnum_assert v i k).
Proof. intro H. apply ends_bind. intros o _. destruct (_ =? _); auto. apply ends_err. Qed.
Lemma within_push v o : within v -> within (push v o).
Proof. intros [[st HS] [ls HL]]. split; [|exists ls; exact HL]. unfold push, stack. cbn. rewrite HS. cbn. eauto. Qed.
Lemma within_err v e : within v -> within (err v e).
Proof. intros [[st HS] [ls HL]]. split; eauto. Qed.
Lemma within_lload v i v1 : within v -> vm_lload v i = Ok v1 -> within v1.
Proof.
  intros HW H. pose proof HW as [_ [ls HL]]. unfold vm_lload in H. rewrite HL in H. destruct (_ <? _). { inversion H. apply within_err. auto. }
  destruct (nth_error _ _) as [[o|]|]; inversion H. apply within_push. auto.
Qed.
Lemma within_new v t v1 : within v -> push_new_string v t = Ok v1 -> within v1.
Proof.
  intros HW H. unfold push_new_string in H. destruct (sm_register _ _ _ _) as [[sm id]| | |]; cbn [bind] in H; inversion H. unfold vm_pushs.
  assert (HW' : within (set_str v sm)) by exact HW. destruct (sm_get _ _); [apply within_push|apply within_err]; auto.
Qed.
End Ends.
(** The usual shape of C functions. *)
Ltac ends_tac :=
  repeat match goal with
  | |- ends _ _ _ _ (vm_ret1 _) => apply ends_ret1
  | |- ends _ _ _ _ (vm_ret0 _) => apply ends_ret0
  | |- ends _ _ _ _ (Ok (err _ _)) => apply ends_err
  | |- ends _ _ _ _ UB => apply ends_ub
  | |- ends _ _ _ _ (type_assert _ _ _ _) => apply ends_type
  | |- ends _ _ _ _ (stack_assert _ _ _) => apply ends_stack
  | |- ends _ _ _ _ (lnum_assert _ _ _) => apply ends_lnum
  | |- ends _ _ _ _ (bind _ _) => apply ends_bind; intros; cbv beta zeta
  | |- ends _ _ _ _ (if ?b then _ else _) => destruct b
  | |- ends _ _ _ _ (match ?b with _ => _ end) => destruct b
  | |- ends _ _ _ _ (let _ := _ in _) => cbv zeta
  | H : vm_lload ?v _ = Ok ?v1 |- within _ _ _ _ ?v1 => refine (within_lload _ _ _ _ _ _ _ _ H)
  | H : push_new_string ?v _ = Ok ?v1 |- within _ _ _ _ ?v1 => refine (within_new _ _ _ _ _ _ _ _ H)
  | |- within _ _ _ _ (push _ _) => apply within_push
  | |- within _ _ _ _ (match ?o with _ => _ end) => destruct o
  | |- within _ _ _ _ _ => assumption
  end.
Ltac c_fun f :=
  intros v v' ra s rest ls L HS HL H HR;
  assert (HW : within ra s rest L v) by (split; eauto);
  assert (HE : ends ra s rest L (f v)); [|eapply HE; eauto].
