(** One step of the VM does the same before and after a collection. *)
From Verif Require Import Base ListLemmas Float Dict PDict DictProofs Strman Obj Instr Vm VmSpec VmProofs HeapClone GcSpec.
Local Open Scope Z_scope. Local Open Scope list_scope.

Section P.
Context {X : Type}.
Implicit Types v g : vm X.
Variable xroots : X -> list obj.
Variable flist : list (vm X -> res (vm X)).
Variable powf : libm.
Variable code : Z -> Z.
Variable size : Z.
Notation roots := (roots xroots).
Notation reached := (reached xroots).
Notation keeps := (keeps xroots).
Notation agree := (agree xroots).

Lemma reach_in (P : obj -> Prop) h R : (forall o, In o R -> P o) -> (forall n r act o, P (OClos n r act) -> In o act -> P o) ->
  (forall a t k x, P (OTab a) -> table_of h a = Some t -> In (k, x) (pentries t) -> P k /\ P x) -> forall o, reach h R o -> P o.
Proof. intros H1 H2 H3 o H. induction H; [auto|eauto|destruct (H3 a t k x); auto|destruct (H3 a t k x); auto]. Qed.

(** What an instruction can make from the objects of [v] without new tables. *)
Inductive known v : obj -> Prop :=
| kn_reach o : reached v o -> known v o
| kn_nil : known v ONil
| kn_int z : known v (OInt z)
| kn_float f : known v (OFloat f)
| kn_user p : known v (OUser p)
| kn_clos n r act : (forall o, In o act -> known v o) -> known v (OClos n r act)
| kn_str i s : kept_string (v_str v) i -> known v (OStr i s).
Definition with_mem v h s : vm X := set_str (set_heap v h) s.
Lemma known_tab v a : known v (OTab a) -> reached v (OTab a).
Proof. intro H. inversion H; auto. Qed.
Lemma known_act v n r act o : known v (OClos n r act) -> In o act -> known v o.
Proof. intros H Ho. inversion H; subst; auto. apply kn_reach. eapply reach_clos; eauto. Qed.
Lemma known_root v o : In o (roots v) -> known v o.
Proof. intro H. apply kn_reach, reach_root, H. Qed.
Lemma known_stack v o : In o (concat (v_stacks v)) -> known v o.
Proof. intro H. apply known_root, in_or_app. auto. Qed.
Lemma known_frame v o : In o (flat_map frame_objs (v_lsymts v)) -> known v o.
Proof. intro H. apply known_root, in_or_app. right. apply in_or_app. auto. Qed.
Lemma known_gsym v o : In o (map snd (pentries (v_gsyms v))) -> known v o.
Proof. intro H. apply known_root, in_or_app. right. apply in_or_app. right. apply in_or_app. auto. Qed.
Lemma known_ext v o : In o (xroots (v_ext v)) -> known v o.
Proof. intro H. apply known_root, in_or_app. right. apply in_or_app. right. apply in_or_app. auto. Qed.
Lemma known_entry v a t k x : known v (OTab a) -> table_of (v_heap v) a = Some t -> In (k, x) (pentries t) -> known v k /\ known v x.
Proof. intros H1 H2 H3. apply known_tab in H1. split; apply kn_reach; [eapply reach_key|eapply reach_val]; eauto. Qed.

(** The same instruction on both sides. *)
Lemma keeps_frame v v' h s : v_heap v' = v_heap v -> v_str v' = v_str v -> (forall o, In o (roots v') -> known v o) -> keeps v (with_mem v h s) -> keeps v' (with_mem v' h s).
Proof.
  intros E1 E2 HR [K1 K2 K3 K4 K5 K6]. cbn [v_heap v_str with_mem set_heap set_str] in *.
  assert (HK : forall o, reached v' o -> known v o).
  { intros o Ho. apply (reach_in (known v) (v_heap v') (roots v')); auto.
    - intros; eapply known_act; eauto.
    - intros a t k x H1 H2 H3. rewrite E1 in H2. eapply known_entry; eauto. }
  split; cbn [v_heap v_str with_mem set_heap set_str].
  - reflexivity.
  - congruence.
  - intros a Ha. rewrite E1. apply K3. apply known_tab, HK, Ha.
  - intros i t Ht. rewrite E2. apply HK in Ht. inversion Ht; subst; eauto.
  - intros i Hi. rewrite E2 in *. auto.
  - rewrite E2. exact K6.
Qed.
Lemma keeps_refl v : keeps v v.
Proof. split; auto. destruct v; reflexivity. Qed.
Lemma reach_same v g : keeps v g -> forall o, reached g o <-> reached v o.
Proof.
  intros [K1 K2 K3 K4 K5 K6] o. assert (HR : roots g = roots v) by (rewrite K1; reflexivity). unfold GcSpec.reached. rewrite HR. split; intro H; induction H.
  - apply reach_root; auto.
  - eapply reach_clos; eauto.
  - rewrite (K3 a) in H0 by auto. eapply reach_key; eauto.
  - rewrite (K3 a) in H0 by auto. eapply reach_val; eauto.
  - apply reach_root; auto.
  - eapply reach_clos; eauto.
  - rewrite <- (K3 a) in H0 by auto. eapply reach_key; eauto.
  - rewrite <- (K3 a) in H0 by auto. eapply reach_val; eauto.
Qed.
Lemma keeps_trans v g g' : keeps v g -> keeps g g' -> keeps v g'.
Proof.
  intros H H'. pose proof (reach_same _ _ H) as HS. destruct H as [K1 K2 K3 K4 K5 K6]. destruct H' as [L1 L2 L3 L4 L5 L6]. split.
  - rewrite K1 in L1. exact L1.
  - congruence.
  - intros a Ha. rewrite L3 by (apply HS; auto). auto.
  - intros i s Hs. rewrite (L4 i s) by (apply HS; auto). eauto.
  - intros i Hi. rewrite L5; auto. destruct Hi as [t Ht]. exists t. rewrite K5; auto. exists t. auto.
  - auto.
Qed.
Lemma keeps_with v g : keeps v g -> g = with_mem v (v_heap g) (v_str g).
Proof. intros [K1 _ _ _ _ _]. exact K1. Qed.

(** Instructions that look at neither tables nor the string manager. *)
Definition rmap {A B} (f : A -> B) (x : res A) : res B := match x with Ok a => Ok (f a) | UB => UB | Abort => Abort | Hang => Hang end.
Definition local (op : vm X -> res (vm X)) : Prop :=
  (forall v h s, op (with_mem v h s) = rmap (fun w => with_mem w h s) (op v)) /\
  (forall v v', op v = Ok v' -> v_heap v' = v_heap v /\ v_str v' = v_str v /\ forall o, In o (roots v') -> known v o).
Notation same_op := (respects xroots).
Lemma local_same op : local op -> same_op op.
Proof.
  intros [H1 H2] v g HK. rewrite (keeps_with _ _ HK), H1. rewrite (keeps_with _ _ HK) in HK. destruct (op v) as [v'| | |] eqn:E; cbn [rmap GcSpec.agree]; auto.
  destruct (H2 v v' E) as (A & B & C). eapply keeps_frame; eauto.
Qed.
Lemma agree_bind x y (k k' : vm X -> res (vm X)) : agree x y -> (forall v g, x = Ok v -> y = Ok g -> keeps v g -> agree (k v) (k' g)) -> agree (v1 <- x ;; k v1) (v1 <- y ;; k' v1).
Proof. intros H HK. destruct x, y; cbn [GcSpec.agree bind] in *; auto; tauto. Qed.
Lemma keeps_state v g : keeps v g -> v_state g = v_state v.
Proof. intro H. rewrite (keeps_with _ _ H). reflexivity. Qed.
Lemma keeps_pc v g : keeps v g -> v_pc g = v_pc v.
Proof. intro H. rewrite (keeps_with _ _ H). reflexivity. Qed.
Lemma same_if_ready op k : same_op op -> same_op k -> same_op (fun v => if_ready (op v) k).
Proof.
  intros H1 H2 v g HK. unfold if_ready. apply agree_bind; [apply H1, HK|]. intros v1 g1 _ _ HK1. rewrite (keeps_state _ _ HK1). destruct (is_ready _); [apply H2, HK1|exact HK1].
Qed.
(** Changes of the program counter and of the state. *)
Lemma keeps_of v g v' g' : keeps v g -> v_heap v' = v_heap v -> v_str v' = v_str v -> roots v' = roots v -> g' = with_mem v' (v_heap g) (v_str g) -> keeps v' g'.
Proof. intros HK E1 E2 E3 ->. rewrite (keeps_with _ _ HK) in HK. eapply keeps_frame; eauto. intros o Ho. rewrite E3 in Ho. apply known_root, Ho. Qed.
Lemma keeps_bump v g : keeps v g -> keeps (bump v) (bump g).
Proof. intro H. apply (keeps_of v g); auto. rewrite (keeps_with _ _ H). reflexivity. Qed.
Lemma keeps_set_pc v g p : keeps v g -> keeps (set_pc v p) (set_pc g p).
Proof. intro H. apply (keeps_of v g); auto. rewrite (keeps_with _ _ H). reflexivity. Qed.
Lemma keeps_err v g e : keeps v g -> keeps (err v e) (err g e).
Proof. intro H. apply (keeps_of v g); auto. rewrite (keeps_with _ _ H). reflexivity. Qed.
Lemma keeps_stop v g : keeps v g -> keeps (set_state v S_DONE (v_error v)) (set_state g S_DONE (v_error g)).
Proof. intro H. apply (keeps_of v g); auto. rewrite (keeps_with _ _ H). reflexivity. Qed.
Lemma inc_eq v k : inc_pc size v k = if pc_ok size (v_pc v + 1) then k (bump v) else Ok (err (bump v) E_PC).
Proof. reflexivity. Qed.
Lemma same_inc k : same_op k -> same_op (fun v => inc_pc size v k).
Proof.
  intros HK v g H. rewrite !inc_eq, (keeps_pc _ _ H). destruct (pc_ok _ _); [apply HK, keeps_bump, H|apply keeps_err, keeps_bump, H].
Qed.
Lemma same_arg (k : vm X -> Z -> res (vm X)) : (forall a, same_op (fun v => k v a)) -> same_op (fun v => get_arg code size v k).
Proof.
  intros HK v g H. unfold get_arg. rewrite (keeps_pc _ _ H). destruct (pc_ok _ _); [apply HK, keeps_set_pc, H|apply keeps_err, H].
Qed.
Lemma same_done : same_op done_. Proof. intros v g H. exact H. Qed.
Lemma same_op_inc op : same_op op -> same_op (fun v => op_inc size (op v)).
Proof. intros HO v g H. unfold op_inc. apply agree_bind; [apply HO, H|]. intros v1 g1 _ _ H1. apply (same_inc done_ same_done). exact H1. Qed.
Lemma same_assert : same_op (fun v => Ok (assert_pc size v)).
Proof. intros v g H. unfold assert_pc. rewrite (keeps_pc _ _ H). destruct (pc_ok _ _); [exact H|apply keeps_err, H]. Qed.

(** ** Operations on the stack *)
Lemma roots_stack v v' : v_lsymts v' = v_lsymts v -> v_gsyms v' = v_gsyms v -> v_ext v' = v_ext v -> (forall o, In o (concat (v_stacks v')) -> known v o) ->
  forall o, In o (roots v') -> known v o.
Proof.
  intros E1 E2 E3 H o Ho. unfold GcSpec.roots in Ho. rewrite E1, E2, E3 in Ho. apply in_app_or in Ho as [Ho|Ho]; [auto|]. apply in_app_or in Ho as [Ho|Ho]; [apply known_frame, Ho|].
  apply in_app_or in Ho as [Ho|Ho]; [apply known_gsym, Ho|apply known_ext, Ho].
Qed.
Lemma on_stack v o : In o (stack v) -> known v o.
Proof. intro H. apply known_stack. unfold stack in H. destruct (v_stacks v) as [|s S]; [destruct H|]. apply in_or_app. auto. Qed.
Lemma below v o : In o (concat (tl (v_stacks v))) -> known v o.
Proof. intro H. apply known_stack. destruct (v_stacks v) as [|s S]; [destruct H|]. apply in_or_app. auto. Qed.
Definition atom (o : obj) : Prop := match o with ONil | OInt _ | OFloat _ | OUser _ => True | _ => False end.
Lemma known_atom v o : atom o -> known v o.
Proof. destruct o; intros []; [apply kn_nil|apply kn_int|apply kn_float|apply kn_user]. Qed.
Ltac loc1 := intros v h s; unfold with_mem; destruct v;
  cbv beta iota delta [stack_assert type_assert stack_at stack set_stack set_stacks set_heap set_str push dpop err set_state v_stacks v_lsymts v_gsyms v_heap v_str v_state v_error v_pc v_oldpc v_swstk v_ext hd tl
    set_pc set_oldpc set_lsymts set_gsyms set_swstk];
  repeat (match goal with |- context [bind ?x _] => destruct x | |- context [match ?x with _ => _ end] => destruct x end; cbn [bind rmap]); try reflexivity.
Ltac on_st := match goal with
  | E : stack ?v = ?l, H : In ?o ?s |- known ?v ?o => apply on_stack; rewrite E; cbn [In]; tauto
  end.
Ltac kst := apply roots_stack; auto; let o := fresh "o" in let Ho := fresh "Ho" in intros o Ho; cbn in Ho;
  repeat first [ destruct Ho as [Ho|Ho] | apply in_app_or in Ho; destruct Ho as [Ho|Ho] | contradiction ];
  try (apply known_stack; exact Ho); try (apply below; exact Ho); try on_st; try (subst; first [apply known_atom; exact I | on_st]).
Ltac kn H := unfold stack_assert, type_assert, stack_at in H; brk H; inversion H; subst; clear H; (split; [reflexivity|]); (split; [reflexivity|]); kst.
Lemma l_arith iop fop : (forall a b r, iop a b = Ok r -> atom r) -> local (fun v => vm_arith v iop fop).
Proof.
  intro HI. split.
  - unfold vm_arith. loc1.
  - intros v v' H. unfold vm_arith in H. kn H. subst.
    match goal with E : arith _ _ _ _ = Ok ?r |- known _ ?r => apply known_atom; unfold arith in E; destruct o0, o; try (inversion E; exact I); eapply HI; eauto end.
Qed.
Lemma i32_atom z r : i32 z = Ok r -> atom r.
Proof. unfold i32. destruct (int32_rangeb z); intro H; inversion H. exact I. Qed.
Lemma int_add_atom a b r : int_add a b = Ok r -> atom r. Proof. apply i32_atom. Qed.
Lemma int_sub_atom a b r : int_sub a b = Ok r -> atom r. Proof. apply i32_atom. Qed.
Lemma int_mul_atom a b r : int_mul a b = Ok r -> atom r. Proof. apply i32_atom. Qed.
Lemma int_div_atom a b r : int_div a b = Ok r -> atom r. Proof. unfold int_div. destruct (b =? 0); [discriminate|apply i32_atom]. Qed.
Lemma int_mod_atom a b r : int_mod a b = Ok r -> atom r.
Proof. unfold int_mod. destruct (_ || _); [discriminate|]. cbv zeta. destruct (_ <? 0); [apply i32_atom|]. intro H; inversion H; exact I. Qed.
Lemma int_and_atom a b r : int_and a b = Ok r -> atom r. Proof. intro H; inversion H; exact I. Qed.
Lemma int_or_atom a b r : int_or a b = Ok r -> atom r. Proof. intro H; inversion H; exact I. Qed.
Lemma int_shl_atom a b r : int_shl a b = Ok r -> atom r. Proof. unfold int_shl. destruct (_ && _); [apply i32_atom|discriminate]. Qed.
Lemma int_shr_atom a b r : int_shr a b = Ok r -> atom r. Proof. unfold int_shr. destruct (_ && _); [|discriminate]. intro H; inversion H; exact I. Qed.
Lemma float_mod_atom a b : atom (float_mod a b). Proof. unfold float_mod. destruct (flt _ _); exact I. Qed.
Lemma l_mod : local (@vm_mod X).
Proof.
  split.
  - unfold vm_mod. loc1.
  - intros v v' H. unfold vm_mod in H. kn H; subst; try (apply known_atom; apply float_mod_atom). apply known_atom. eapply int_mod_atom; eauto.
Qed.
Lemma l_pow : local (@vm_pow X powf).
Proof.
  split.
  - unfold vm_pow. loc1.
  - intros v v' H. unfold vm_pow in H. kn H.
Qed.
Lemma l_unm : local (@vm_unm X).
Proof.
  split.
  - unfold vm_unm. loc1.
  - intros v v' H. unfold vm_unm in H. kn H. subst. apply known_atom. eapply i32_atom; eauto.
Qed.
Lemma l_logic f : local (fun v => vm_logic v f).
Proof.
  split.
  - unfold vm_logic. loc1.
  - intros v v' H. unfold vm_logic in H. kn H.
Qed.
Lemma l_lnot : local (@vm_lnot X).
Proof.
  split.
  - unfold vm_lnot. loc1.
  - intros v v' H. unfold vm_lnot in H. kn H.
Qed.
Lemma l_bitwise f : (forall a b r, f a b = Ok r -> atom r) -> local (fun v => vm_bitwise v f).
Proof.
  intro HF. split.
  - unfold vm_bitwise. loc1.
  - intros v v' H. unfold vm_bitwise in H. kn H. subst. apply known_atom. eapply HF; eauto.
Qed.
Lemma l_bnot : local (@vm_bnot X).
Proof.
  split.
  - unfold vm_bnot. loc1.
  - intros v v' H. unfold vm_bnot in H. kn H.
Qed.
Lemma l_cmp f : local (fun v => vm_cmp powf v f).
Proof.
  split.
  - unfold vm_cmp. loc1.
  - intros v v' H. unfold vm_cmp in H. kn H.
Qed.
Lemma l_pop : local (fun v => Ok (vm_pop v)).
Proof.
  split.
  - unfold vm_pop. loc1.
  - intros v v' H. unfold vm_pop in H. inversion H; subst; clear H. destruct (stack v) as [|o0 s0] eqn:E; (split; [reflexivity|]); (split; [reflexivity|]); kst.
    rewrite E in Ho. on_st.
Qed.
Lemma l_dup : local (fun v => Ok (vm_dup v)).
Proof.
  split.
  - unfold vm_dup. loc1.
  - intros v v' H. unfold vm_dup in H. inversion H; subst; clear H. destruct (stack v) as [|o0 s0] eqn:E; (split; [reflexivity|]); (split; [reflexivity|]); kst.
    + subst. apply on_stack. rewrite E. left. reflexivity.
    + apply on_stack. exact Ho.
Qed.
Lemma l_push o : (forall v, known v o) -> local (fun v => Ok (push v o)).
Proof.
  intro HO. split.
  - loc1.
  - intros v v' H. inversion H; subst; clear H. (split; [reflexivity|]); (split; [reflexivity|]); kst; subst; auto. apply on_stack. exact Ho.
Qed.

(** ** Dictionaries *)
Lemma in_upd {A} (l : list A) : forall i x y, In y (upd l i x) -> y = x \/ In y l.
Proof. induction l; intros [|i] x y; cbn; try tauto; intros [<-|H]; auto. apply IHl in H as [->|H]; auto. Qed.
Lemma in_nth_concat {A} (l : list (list A)) : forall i x, In x (nth i l []) -> In x (concat l).
Proof. induction l; intros [|i] x; cbn; try tauto; intro H; apply in_or_app; eauto. Qed.
Lemma find_first_in {K V} (cf : K -> K -> Z) k (l : list (K * V)) e : find_first cf k l = Some e -> In e l.
Proof. induction l as [|a l IH]; cbn; [discriminate|]. destruct (_ =? 0); intro H; [inversion H; auto|auto]. Qed.
Lemma del_first_in {K V} (cf : K -> K -> Z) k (l : list (K * V)) e : In e (del_first cf k l) -> In e l.
Proof. induction l as [|a l IH]; cbn; [tauto|]. destruct (_ =? 0); cbn; tauto. Qed.
Lemma gsym_get_in d k o : gsym_get d k = Some o -> In o (map snd (pentries d)).
Proof.
  unfold gsym_get, pget. destruct (find_first _ _ _) as [e|] eqn:E; [|discriminate]. intro H; inversion H; subst. apply find_first_in in E. apply in_map. eapply in_nth_concat. exact E.
Qed.
Lemma gsym_set_in d k x o : In o (map snd (pentries (gsym_set d k x))) -> o = x \/ In o (map snd (pentries d)).
Proof.
  intro H. apply in_map_iff in H as ((k0 & o0) & E & H). cbn in E. subst o0. unfold gsym_set, pset, pentries in H. apply in_concat in H as (b & Hb & H). apply in_upd in Hb as [->|Hb].
  - apply in_app_or in H as [H|[H|[]]]; [|inversion H; auto]. right. apply del_first_in, in_nth_concat in H. apply in_map_iff. exists (k0, o). auto.
  - right. apply in_map_iff. exists (k0, o). split; auto. apply in_concat. eauto.
Qed.
Lemma rdel_in {K V} (cf : K -> K -> res Z) k (l : list (K * V)) : forall l' e, rdel cf k l = Ok l' -> In e l' -> In e l.
Proof.
  induction l as [|a l IH]; cbn; intros l' e H He; [inversion H; subst; auto|]. apply bind_ok in H as (c & _ & H). destruct (c =? 0); [inversion H; subst; auto|].
  apply bind_ok in H as (l1 & H1 & H). inversion H; subst. destruct He as [<-|He]; eauto.
Qed.
Lemma rremove_entries {K V} (hf : K -> res Z) cf (t : pdict K V) k t' : rremove hf cf t k = Ok t' -> forall e, In e (concat t') -> In e (concat t).
Proof.
  unfold rremove. intros H e He. apply bind_ok in H as (s & _ & H). apply bind_ok in H as (l & Hl & H). inversion H; subst t'. apply in_concat in He as (b & Hb & He).
  apply in_upd in Hb as [->|Hb]; [|apply in_concat; eauto]. eapply in_nth_concat, rdel_in; eauto.
Qed.
Lemma rget_in {K V} (hf : K -> res Z) cf (t : pdict K V) k x : rget hf cf t k = Ok (Some x) -> exists k', In (k', x) (concat t).
Proof.
  unfold rget. intro H. apply bind_ok in H as (s & _ & H). enough (exists k', In (k', x) (nth s t [])) as (k' & Hk) by (exists k'; eapply in_nth_concat; eauto).
  induction (nth s t []) as [|[k1 x1] l IH]; cbn in H; [discriminate|]. apply bind_ok in H as (c & _ & H). destruct (c =? 0).
  - inversion H; subst. exists k1. left. reflexivity.
  - apply IH in H as (k' & Hk). exists k'. right. exact Hk.
Qed.

(** ** Variables *)
Lemma roots_all v v' : (forall o, In o (concat (v_stacks v')) -> known v o) -> (forall o, In o (flat_map frame_objs (v_lsymts v')) -> known v o) ->
  (forall o, In o (map snd (pentries (v_gsyms v'))) -> known v o) -> v_ext v' = v_ext v -> forall o, In o (roots v') -> known v o.
Proof.
  intros H1 H2 H3 E o Ho. unfold GcSpec.roots in Ho. rewrite E in Ho. apply in_app_or in Ho as [Ho|Ho]; [auto|]. apply in_app_or in Ho as [Ho|Ho]; [auto|].
  apply in_app_or in Ho as [Ho|Ho]; [auto|apply known_ext, Ho].
Qed.
Ltac kal := apply roots_all; auto; let o := fresh "o" in let Ho := fresh "Ho" in intros o Ho; cbn in Ho;
  repeat first [ destruct Ho as [Ho|Ho] | apply in_app_or in Ho; destruct Ho as [Ho|Ho] | contradiction ];
  try (apply known_stack; exact Ho); try (apply known_frame; exact Ho); try (apply known_gsym; exact Ho); try (apply below; exact Ho); try on_st; try (subst; first [apply known_atom; exact I | on_st]).
Ltac on_top := match goal with E : stack ?v = _ |- known ?v _ => apply on_stack; rewrite E; cbn [In]; tauto end.
Ltac kv H := unfold stack_assert, type_assert, stack_at in H; brk H; inversion H; subst; clear H; (split; [reflexivity|]); (split; [reflexivity|]); kal.
Lemma l_gload : local (@vm_gload X).
Proof.
  split.
  - unfold vm_gload. loc1.
  - intros v v' H. unfold vm_gload in H. kv H. eapply known_gsym, gsym_get_in; subst; eauto.
Qed.
Lemma l_gstore : local (@vm_gstore X).
Proof.
  split.
  - unfold vm_gstore. loc1.
  - intros v v' H. unfold vm_gstore in H. kv H. apply gsym_set_in in Ho as [->|Ho]; [on_top|apply known_gsym, Ho].
Qed.
Lemma all_init_in l : forall a o, all_init l = Ok a -> In o a -> In (Some o) l.
Proof.
  induction l as [|[x|] l IH]; cbn; intros a o H Ho; [inversion H; subst; auto| |discriminate]. apply bind_ok in H as (r & Hr & H). inversion H; subst. destruct Ho as [->|Ho]; eauto.
Qed.
Lemma slot_known v f t o : v_lsymts v = f :: t -> In (Some o) (ls_syms f) -> known v o.
Proof. intros E H. apply known_frame. rewrite E. cbn. apply in_or_app. left. apply in_flat_map. exists (Some o). split; auto. left. reflexivity. Qed.
Lemma l_pushl a : local (fun v => vm_pushl v a).
Proof.
  split.
  - unfold vm_pushl. loc1.
  - intros v v' H. unfold vm_pushl in H. kv H; subst; try (apply on_stack; exact Ho); apply kn_clos; intros x Hx.
    + destruct Hx as [<-|[]]. apply kn_nil.
    + eapply slot_known; eauto. eapply all_init_in; eauto.
Qed.
Lemma l_lload i : local (fun v => vm_lload v i).
Proof.
  split.
  - unfold vm_lload. loc1.
  - intros v v' H. unfold vm_lload in H. kv H; subst; try (apply on_stack; exact Ho). eapply slot_known; eauto. eapply nth_error_In; eauto.
Qed.
Lemma slot_set_in l i o x : In (Some x) (slot_set l i o) -> x = o \/ In (Some x) l.
Proof.
  unfold slot_set. destruct (Nat.ltb _ _).
  - intro H. apply in_upd in H as [H|H]; [inversion H; auto|auto].
  - intro H. apply in_app_or in H as [H|H]; [auto|]. apply in_app_or in H as [H|[H|[]]]; [apply repeat_spec in H; discriminate|inversion H; auto].
Qed.
Lemma frame_in f o : In o (frame_objs f) <-> In (Some o) (ls_syms f).
Proof.
  unfold frame_objs. rewrite in_flat_map. split.
  - intros ([x|] & Hx & H); [|destruct H]. destruct H as [->|[]]. exact Hx.
  - intro H. exists (Some o). split; auto. left. reflexivity.
Qed.
Lemma tail_known v f t o : v_lsymts v = f :: t -> In o (flat_map frame_objs t) -> known v o.
Proof. intros E H. apply known_frame. rewrite E. cbn. apply in_or_app. auto. Qed.
Lemma l_lstore i : local (fun v => vm_lstore v i).
Proof.
  split.
  - unfold vm_lstore. loc1.
  - intros v v' H. unfold vm_lstore in H. kv H.
    + apply (frame_in (mkLs _ true)) in Ho. apply slot_set_in in Ho as [->|Ho]; [on_top|eapply slot_known; eauto].
    + eapply tail_known; eauto.
Qed.
Lemma firstn_in {A} (l : list A) : forall n x, In x (firstn n l) -> In x l.
Proof. induction l; intros [|n] x; cbn; try tauto. intros [->|H]; eauto. Qed.
Lemma l_lremove i : local (fun v => vm_lremove v i).
Proof.
  split.
  - intros v h s. unfold vm_lremove, with_mem. cbn [v_lsymts set_str set_heap]. destruct (v_lsymts v); [reflexivity|]. cbv zeta. destruct (_ <? _); reflexivity.
  - intros v v' H. unfold vm_lremove in H. brk H; inversion H; subst; clear H; (split; [destruct (_ <? _); reflexivity|]); (split; [destruct (_ <? _); reflexivity|]); kal; try (destruct (_ <? _); apply known_stack; exact Ho); try (destruct (_ <? _); apply known_gsym; exact Ho).
    all: try (destruct (_ <? _); reflexivity).
    all: first [eapply tail_known; eauto; fail | apply (frame_in (mkLs _ true)), firstn_in in Ho; eapply slot_known; eauto].
Qed.

(** ** Returns *)
Lemma local_bind op k : local op -> local k -> local (fun v => v1 <- op v ;; k v1).
Proof.
  intros [A1 A2] [B1 B2]. split.
  - intros v h s. rewrite A1. destruct (op v); cbn [bind rmap]; auto.
  - intros v v' H. apply bind_ok in H as (v1 & H1 & H2). destruct (A2 _ _ H1) as (C1 & C2 & C3). destruct (B2 _ _ H2) as (D1 & D2 & D3).
    split; [congruence|]. split; [congruence|]. intros o Ho. apply D3 in Ho. clear D3 H2.
    induction Ho as [o H| | | | |n r act H IH|i s H].
    + revert H. apply reach_in; [exact C3|intros; eapply known_act; eauto|]. intros a t k0 x H2 H3 H4. rewrite C1 in H3. eapply known_entry; eauto.
    + apply kn_nil.
    + apply kn_int.
    + apply kn_float.
    + apply kn_user.
    + apply kn_clos. auto.
    + apply kn_str. rewrite <- C2. exact H.
Qed.
Lemma l_pop_lsyms : local (@pop_lsyms X).
Proof.
  split.
  - intros v h s. unfold pop_lsyms, with_mem. cbn [v_lsymts set_str set_heap]. destruct (v_lsymts v) as [|f t]; [reflexivity|]. destruct (ls_swarm f); reflexivity.
  - intros v v' H. unfold pop_lsyms in H. brk H; inversion H; subst; clear H; (split; [reflexivity|]); (split; [reflexivity|]); kal; eapply tail_known; eauto.
Qed.
Lemma l_pop_stacks : local (@pop_stacks X).
Proof.
  split.
  - unfold pop_stacks. loc1.
  - intros v v' H. unfold pop_stacks in H. brk H; inversion H; subst; clear H; (split; [reflexivity|]); (split; [reflexivity|]); kal; apply known_stack; rewrite Eb; cbn; apply in_or_app; right; apply in_or_app; auto.
Qed.
Lemma l_ret_to r : atom r -> local (fun v => ret_to v r).
Proof.
  intro HA. split.
  - unfold ret_to. loc1.
  - intros v v' H. unfold ret_to in H. kv H. subst. apply known_atom, HA.
Qed.
Lemma l_ret0 : local (@vm_ret0 X).
Proof. unfold vm_ret0. apply local_bind; [apply l_pop_lsyms|]. apply (local_bind _ (fun v => ret_to v ONil)); [apply l_pop_stacks|apply l_ret_to; exact I]. Qed.
(** Those that give the result of a function. *)
Lemma l_ret1_last : local (fun v => stack_assert v 1 (match stack v with r :: _ => v2 <- pop_stacks v ;; ret_to v2 r | [] => UB end)).
Proof.
  split.
  - intros v h s. unfold stack_assert, pop_stacks, ret_to, with_mem, stack. cbn [v_stacks set_str set_heap]. destruct (v_stacks v) as [|s1 S1]; [reflexivity|]. cbn [hd].
    destruct (_ <? 0); [reflexivity|]. destruct s1 as [|r s1]; [reflexivity|]. destruct S1 as [|s2 S1]; [reflexivity|]. cbn [bind]. unfold stack_assert, type_assert, stack_at, stack. cbn [v_stacks set_str set_heap set_stacks hd].
    destruct (_ <? 0); [reflexivity|]. destruct (1 <=? 1); [|reflexivity]. destruct (nth_error s2 _); [|reflexivity]. cbn [bind]. destruct (_ =? _); [|reflexivity]. destruct s2 as [|[] s2]; reflexivity.
  - intros v v' H. unfold stack_assert in H at 1. destruct (_ <? 0).
    { inversion H; subst. (split; [reflexivity|]); (split; [reflexivity|]); kal. }
    unfold stack, pop_stacks in H. destruct (v_stacks v) as [|[|r s1] [|s2 S1]] eqn:ES; try discriminate H. cbn [hd bind] in H.
    unfold ret_to, stack_assert, type_assert, stack_at, stack in H. cbn [v_stacks set_stacks hd] in H. brk H; try discriminate; inversion H; subst; clear H; (split; [reflexivity|]); (split; [reflexivity|]); apply roots_all; auto.
    all: try (intros x Hx; apply known_frame; exact Hx); try (intros x Hx; apply known_gsym; exact Hx).
    all: intros x Hx; apply known_stack; rewrite ES; cbn in Hx |- *; rewrite ?in_app_iff in *; cbn in *; rewrite ?in_app_iff in *; try tauto.
Qed.
Lemma l_ret1 : local (@vm_ret1 X).
Proof. unfold vm_ret1. apply (local_bind _ (fun v => stack_assert v 1 (match stack v with r :: _ => v2 <- pop_stacks v ;; ret_to v2 r | [] => UB end))); [apply l_pop_lsyms|apply l_ret1_last]. Qed.

(** ** Tables *)
Lemma in_skipn {A} (l : list A) : forall n x, In x (skipn n l) -> In x l.
Proof. induction l; intros [|n] x; cbn; auto. intro H. right. eapply IHl; eauto. Qed.
Lemma tab_at_of v a : tab_at v a = match table_of (v_heap v) a with Some t => Ok t | None => UB end.
Proof. unfold tab_at, table_of. destruct (0 <=? a); reflexivity. Qed.
Lemma tab_at_same v g a : keeps v g -> reached v (OTab a) -> tab_at g a = tab_at v a.
Proof. intros HK H. rewrite !tab_at_of, (k_tabs _ _ _ HK a H). reflexivity. Qed.
Lemma frame_ok v v' h s : keeps v (with_mem v h s) -> v_heap v' = v_heap v -> v_str v' = v_str v -> (forall o, In o (roots v') -> known v o) -> agree (Ok v') (Ok (with_mem v' h s)).
Proof. intros. eapply keeps_frame; eauto. Qed.
Ltac fr HK := match goal with |- agree (Ok ?w) _ => refine (frame_ok _ w _ _ HK eq_refl eq_refl _) end; kal.
Lemma s_tget : same_op (@vm_tget X).
Proof.
  intros v g HK. rewrite (keeps_with _ _ HK). rewrite (keeps_with _ _ HK) in HK. set (h := v_heap g) in *. set (s := v_str g) in *. clearbody h s.
  assert (ES : stack (with_mem v h s) = stack v) by reflexivity. unfold vm_tget, stack_assert, type_assert, stack_at. rewrite ES.
  destruct (_ <? 0); [fr HK|]. destruct (1 <=? 2); [|exact I]. destruct (nth_error _ _) as [o|]; [|exact I]. cbn [bind]. destruct (_ =? _); [|fr HK].
  destruct (stack v) as [|k [|[| | | |a| | ] st]] eqn:E; try exact I. destruct (is_key k); [|exact I].
  assert (HA : reached v (OTab a)) by (apply known_tab, on_stack; rewrite E; cbn; auto).
  change (tab_at (set_stack (with_mem v h s) st) a) with (tab_at (with_mem v h s) a). rewrite (tab_at_same _ _ _ HK HA). change (tab_at (set_stack v st) a) with (tab_at v a).
  destruct (tab_at v a) as [t| | |] eqn:ET; try exact I. cbn [bind]. destruct (tab_get t k) as [r| | |] eqn:EG; try exact I. cbn [bind]. fr HK.
  subst. destruct r as [x|]; [|apply kn_nil]. rewrite tab_at_of in ET. destruct (table_of _ _) eqn:EO; [|discriminate]. inversion ET; subst. apply rget_in in EG as (k' & EG).
  eapply (proj2 (known_entry v a _ k' x (kn_reach _ _ HA) EO EG)).
Qed.
(** A table that can be reached gets a new content. *)
Lemma table_upd (l : list table) a t b : 0 <= a -> table_of (upd l (Z.to_nat a) t) b = if b =? a then match table_of l a with Some _ => Some t | None => None end else table_of l b.
Proof.
  intro HA. unfold table_of. destruct (b =? a) eqn:E.
  - assert (b = a) by lia. subst. replace (0 <=? a) with true by lia. revert l. induction (Z.to_nat a); intros [|x l]; cbn; auto.
  - destruct (0 <=? b) eqn:EB; [|reflexivity]. assert (HN : Z.to_nat b <> Z.to_nat a) by lia. revert l HN. generalize (Z.to_nat a) (Z.to_nat b). induction n; intros [|m] [|x l] H; cbn; auto; try congruence.
Qed.
Lemma keeps_put v v' h s a t : keeps v (with_mem v h s) -> 0 <= a -> reached v (OTab a) -> (forall k x, In (k, x) (pentries t) -> known v k /\ known v x) ->
  v_heap v' = upd (v_heap v) (Z.to_nat a) t -> v_str v' = v_str v -> (forall o, In o (roots v') -> known v o) -> agree (Ok v') (Ok (with_mem v' (upd h (Z.to_nat a) t) s)).
Proof.
  intros [K1 K2 K3 K4 K5 K6] HP HA HT E1 E2 HR. cbn [v_heap v_str with_mem set_heap set_str] in *.
  assert (HK : forall o, reached v' o -> known v o).
  { intros o Ho. apply (reach_in (known v) (v_heap v') (roots v')); auto.
    - intros; eapply known_act; eauto.
    - intros b t0 k x H1 H2 H3. rewrite E1, table_upd in H2 by auto. destruct (b =? a); [|eapply known_entry; eauto]. destruct (table_of _ _); inversion H2; subst; auto. }
  split; cbn [v_heap v_str with_mem set_heap set_str].
  - reflexivity.
  - rewrite E1, !upd_length. auto.
  - intros b Hb. rewrite E1, !table_upd by auto. apply HK, known_tab in Hb. destruct (b =? a); [rewrite (K3 a HA); reflexivity|auto].
  - intros i u Ht. rewrite E2. apply HK in Ht. inversion Ht; subst; eauto.
  - intros i Hi. rewrite E2 in *. auto.
  - rewrite E2. exact K6.
Qed.
Lemma bind_self_known v t x : known v t -> known v x -> known v (bind_self t x).
Proof.
  intros HT HX. destruct x; auto. cbn [bind_self]. apply kn_clos. intros o [<-|Ho]; auto. eapply known_act; [exact HX|]. destruct actrec; [destruct Ho|right; exact Ho].
Qed.
Lemma s_tput : same_op (@vm_tput X).
Proof.
  intros v g HK. rewrite (keeps_with _ _ HK). rewrite (keeps_with _ _ HK) in HK. set (h := v_heap g) in *. set (s := v_str g) in *. clearbody h s.
  assert (ES : stack (with_mem v h s) = stack v) by reflexivity. unfold vm_tput, stack_assert, type_assert, stack_at. rewrite ES.
  destruct (_ <? 0); [fr HK|]. destruct (1 <=? 3); [|exact I]. destruct (nth_error _ _) as [o|]; [|exact I]. cbn [bind]. destruct (_ =? _); [|fr HK].
  destruct (stack v) as [|x [|k [|[| | | |a| | ] st]]] eqn:E; try exact I. destruct (is_key k); [|fr HK].
  assert (HA : reached v (OTab a)) by (apply known_tab, on_stack; rewrite E; cbn; auto).
  assert (HX : known v x) by (apply on_stack; rewrite E; cbn; auto). assert (HKK : known v k) by (apply on_stack; rewrite E; cbn; auto).
  change (tab_at (set_stack (with_mem v h s) st) a) with (tab_at (with_mem v h s) a). rewrite (tab_at_same _ _ _ HK HA). change (tab_at (set_stack v st) a) with (tab_at v a).
  destruct (tab_at v a) as [t| | |] eqn:ET; try exact I. cbn [bind]. rewrite tab_at_of in ET. destruct (table_of _ _) eqn:EO; [|discriminate]. inversion ET; subst; clear ET.
  assert (HP : 0 <= a) by (unfold table_of in EO; destruct (0 <=? a) eqn:EE; [lia|discriminate]).
  match goal with |- agree (t' <- ?m ;; _) _ => assert (HT : forall t', m = Ok t' -> forall k0 y, In (k0, y) (pentries t') -> known v k0 /\ known v y) end.
  { intros t' HT k0 y Hy. assert (HE : In (k0, y) (pentries t) \/ (k0, y) = (k, bind_self (OTab a) x)).
    { destruct x; try (left; eapply rremove_entries; eauto; fail); destruct (rset_entries _ _ _ _ _ _ HT) as [_ HS]; apply HS; exact Hy. }
    destruct HE as [HE|HE]; [eapply known_entry; eauto; apply kn_reach, HA|]. inversion HE; subst. split; [exact HKK|]. apply bind_self_known; auto. apply kn_reach, HA. }
  match goal with |- agree (t' <- ?m ;; _) _ => destruct m as [t'| | |]; try exact I; specialize (HT t' eq_refl) end. cbn [bind].
  unfold tab_put. refine (keeps_put v _ h s a t' HK HP HA HT _ _ _); auto. kal.
Qed.
Lemma s_pusht : same_op (fun v => Ok (@vm_pusht X v)).
Proof.
  intros v g HK. rewrite (keeps_with _ _ HK). rewrite (keeps_with _ _ HK) in HK. set (h := v_heap g) in *. set (s := v_str g) in *. clearbody h s.
  destruct HK as [K1 K2 K3 K4 K5 K6]. cbn [v_heap v_str with_mem set_heap set_str] in *.
  assert (EL : zlen h = zlen (v_heap v)) by (unfold zlen; lia). unfold vm_pusht, new_table. cbn [v_heap with_mem set_heap set_str]. rewrite EL.
  assert (TL : forall (l : list table) b, zlen l = zlen (v_heap v) -> table_of (l ++ [tab_new]) b = if b =? zlen (v_heap v) then Some tab_new else table_of l b).
  { intros l b HL. unfold table_of, zlen in *. destruct (b =? _) eqn:EB.
    - replace (0 <=? b) with true by lia. rewrite nth_error_app2 by lia. replace (Z.to_nat b - length l)%nat with 0%nat by lia. reflexivity.
    - destruct (0 <=? b) eqn:E0; [|reflexivity]. destruct (Nat.ltb (Z.to_nat b) (length l)) eqn:EC.
      + apply Nat.ltb_lt in EC. apply nth_error_app1. exact EC.
      + apply Nat.ltb_ge in EC. rewrite (proj2 (nth_error_None _ _)); [|rewrite app_length; cbn; lia]. symmetry. apply nth_error_None. exact EC. }
  assert (HK : forall o, reached (push (set_heap v (v_heap v ++ [tab_new])) (OTab (zlen (v_heap v)))) o -> known v o \/ o = OTab (zlen (v_heap v))).
  { intros o Ho. unfold GcSpec.reached in Ho. revert Ho. apply (reach_in (fun o => known v o \/ o = OTab (zlen (v_heap v)))).
    - intros x Hx. unfold GcSpec.roots in Hx. cbn in Hx. destruct Hx as [Hx|Hx]; [auto|]. left. apply in_app_or in Hx as [Hx|Hx].
      + apply in_app_or in Hx as [Hx|Hx]; [apply on_stack; exact Hx|apply below; exact Hx].
      + apply known_root. unfold GcSpec.roots. apply in_or_app. right. exact Hx.
    - intros n r act x [H|H] Hx; [left; eapply known_act; eauto|discriminate].
    - intros a t k x HA HT HI. cbn [v_heap push set_stack set_stacks set_heap] in HT. rewrite TL in HT by reflexivity. destruct (a =? zlen (v_heap v)) eqn:E; [inversion HT; subst t; destruct HI|].
      destruct HA as [HA|HA]; [|inversion HA; lia]. destruct (known_entry v a t k x HA HT HI). auto. }
  split; cbn [v_heap v_str with_mem set_heap set_str push set_stack set_stacks].
  - reflexivity.
  - rewrite !app_length. lia.
  - intros a Ha. rewrite !TL by auto. destruct (a =? _) eqn:E; [reflexivity|]. apply HK in Ha as [Ha|Ha]; [apply K3, known_tab, Ha|inversion Ha; lia].
  - intros i u Hu. apply HK in Hu as [Hu|Hu]; [|discriminate]. inversion Hu; subst; eauto.
  - auto.
  - exact K6.
Qed.

(** ** Calls *)
Lemma s_call sw : Forall same_op flist -> same_op (fun v => vm_call flist v sw).
Proof.
  intros HF v g HK. rewrite (keeps_with _ _ HK). rewrite (keeps_with _ _ HK) in HK. set (h := v_heap g) in *. set (s := v_str g) in *. clearbody h s.
  assert (ES : stack (with_mem v h s) = stack v) by reflexivity. unfold vm_call, stack_assert, type_assert, stack_at. rewrite ES.
  destruct (_ <? 0); [fr HK|]. destruct (1 <=? 1); [|exact I]. destruct (nth_error _ _) as [o|]; [|exact I]. cbn [bind]. destruct (_ =? _); [|fr HK].
  destruct (stack v) as [|[|argn| | | | | ] s0] eqn:E; try exact I. destruct (_ >=? _); [exact I|].
  change (stack (set_stack (with_mem v h s) s0)) with s0. change (stack (set_stack v s0)) with s0. destruct (_ <? 0); [fr HK|].
  destruct (1 <=? argn + 1) eqn:EA; [|exact I]. destruct (nth_error s0 _) as [c|] eqn:EC; [|exact I]. cbn [bind]. destruct (otype c =? _); [|fr HK]. destruct c as [| | | | |native ref actrec|]; try exact I.
  destruct (_ && _); [fr HK|]. cbv zeta.
  match goal with |- agree (if native then Ok (set_pc (set_oldpc ?w _) _) else _) _ => set (v5 := w) end.
  assert (HR : forall o, In o (roots v5) -> known v o).
  { apply roots_all.
    - intros x Hx. cbn in Hx. destruct Hx as [<-|Hx]; [apply kn_int|]. apply in_app_or in Hx as [Hx|Hx]; [|apply below; exact Hx].
      apply on_stack. rewrite E. right. destruct s0 as [|y [|z s0]]; [destruct Hx|destruct Hx|]. right. right. eapply in_skipn; exact Hx.
    - intros x Hx. cbn in Hx. apply in_app_or in Hx as [Hx|Hx]; [|apply known_frame; exact Hx]. apply (frame_in (mkLs _ true)) in Hx. cbn [ls_syms] in Hx. apply in_app_or in Hx as [Hx|Hx].
      + apply in_map_iff in Hx as (y & Ey & Hy). inversion Ey; subst y. eapply known_act; [|exact Hy]. apply on_stack. rewrite E. right. eapply nth_error_In. exact EC.
      + apply in_rev in Hx. apply in_map_iff in Hx as (y & Ey & Hy). inversion Ey; subst y. apply on_stack. rewrite E. right. eapply firstn_in. exact Hy.
    - intros x Hx. apply known_gsym. exact Hx.
    - reflexivity. }
  destruct native.
  - refine (frame_ok v (set_pc (set_oldpc v5 (v_pc v5)) ref) h s HK eq_refl eq_refl _). exact HR.
  - destruct (ref <? 0); [exact I|]. destruct (nth_error flist _) as [f|] eqn:EF; [|exact I]. rewrite Forall_forall in HF. apply (HF f (nth_error_In _ _ EF) v5 (with_mem v5 h s)).
    exact (keeps_frame v v5 h s eq_refl eq_refl HR HK).
Qed.

(** ** One step *)
Lemma s_jumpif_last t arg : same_op (fun v => stack_assert v 1 (o <- stack_at v 1 ;;
  if Bool.eqb (truthy o) t then let v1 := assert_pc size (set_pc v (sign32 arg)) in if is_ready (v_state v1) then Ok (vm_pop v1) else Ok v1 else Ok (vm_pop v))).
Proof.
  intros v g HK. rewrite (keeps_with _ _ HK). rewrite (keeps_with _ _ HK) in HK. set (h := v_heap g) in *. set (s := v_str g) in *. clearbody h s.
  assert (ES : stack (with_mem v h s) = stack v) by reflexivity. unfold stack_assert, stack_at. rewrite ES.
  destruct (_ <? 0); [fr HK|]. destruct (1 <=? 1); [|exact I]. destruct (nth_error _ _) as [o|]; [|exact I]. cbn [bind].
  pose proof (local_same _ l_pop) as HP. destruct (Bool.eqb _ _); [|apply HP, HK]. cbv zeta.
  pose proof (same_assert _ _ (keeps_set_pc _ _ (sign32 arg) HK)) as HA. cbn [GcSpec.agree] in HA. rewrite (keeps_state _ _ HA). destruct (is_ready _); [apply HP, HA|exact HA].
Qed.
Lemma s_jumpif t : same_op (fun v => vm_jumpif code size v t).
Proof. unfold vm_jumpif. apply same_inc. apply same_arg. intro a. apply s_jumpif_last. Qed.
Lemma known_pushc n a : forall v, known v (OClos n (sign32 a) [ONil]).
Proof. intro v. apply kn_clos. intros o [<-|[]]. apply kn_nil. Qed.
(** The steps do the same. *)
Section Step.
Hypothesis HF : Forall same_op flist.
Ltac ls := apply local_same.
Lemma s_exec o : o <> I_PUSHS -> same_op (fun v => exec flist powf code size v o).
Proof.
  intro HN. destruct o; try congruence; cbn [Vm.exec];
    first
    [ apply same_op_inc; ls; first [ apply l_arith; first [exact int_add_atom|exact int_sub_atom|exact int_mul_atom|exact int_div_atom] | apply l_mod | apply l_pow | apply l_unm | apply l_logic | apply l_lnot
        | apply l_bitwise; first [exact int_and_atom|exact int_or_atom|exact int_shl_atom|exact int_shr_atom] | apply l_bnot | apply l_cmp ]
    | apply s_jumpif
    | apply same_inc; ls; first [apply l_dup|apply l_gload|apply l_gstore]
    | idtac ].
  - apply same_inc, same_done.
  - intros v g H. apply keeps_stop, H.
  - apply same_inc. ls. apply l_push. intro. apply kn_nil.
  - apply same_if_ready; [ls; apply l_pop|apply same_inc, same_done].
  - apply same_if_ready; [ls; apply l_ret0|apply same_assert].
  - apply same_if_ready; [ls; apply l_ret1|apply same_assert].
  - apply same_op_inc, s_pusht.
  - apply same_if_ready; [apply s_tput|apply same_inc, same_done].
  - apply same_if_ready; [apply s_tget|apply same_inc, same_done].
  - apply same_inc, same_if_ready; [apply s_call, HF|apply same_assert].
  - apply same_inc, same_if_ready; [apply s_call, HF|apply same_assert].
  - apply same_inc, same_arg. intro a. ls. apply l_push. intro. apply kn_float.
  - apply same_inc, same_arg. intro a. ls. apply l_push. intro. apply kn_int.
  - apply same_inc, same_arg. intro a. ls. apply l_push. apply known_pushc.
  - apply same_inc, same_arg. intro a. ls. apply l_push. apply known_pushc.
  - apply same_inc, same_arg. intro a. ls. apply l_pushl.
  - apply same_inc, same_arg. intro a. ls. apply l_lload.
  - apply same_inc, same_arg. intro a. ls. apply l_lstore.
  - apply same_inc, same_arg. intro a. ls. apply l_lremove.
  - apply same_inc, same_arg. intros a v g H. apply same_assert, keeps_set_pc, H.
Qed.
Lemma s_pushs v g a : keeps v g -> kept_string (v_str v) (wrap16 a) -> agree (Ok (vm_pushs v a)) (Ok (vm_pushs g a)).
Proof.
  intros HK HS. pose proof HS as [t Ht]. unfold vm_pushs, sm_get. pose proof (k_kept _ _ _ HK _ HS) as HE. unfold string_of in *. rewrite HE, Ht. cbn [fst].
  clear HE. pose proof HK as HK'. rewrite (keeps_with _ _ HK) in HK'. rewrite (keeps_with _ _ HK). fr HK'.
  - subst. apply kn_str, HS.
  - apply on_stack. exact Ho.
Qed.
Lemma opcode_pushs b : opcode_of b = Some I_PUSHS -> b = opnum I_PUSHS.
Proof.
  unfold opcode_of. intro H. enough (Z.to_nat b = Z.to_nat (opnum I_PUSHS)) by (change (opnum I_PUSHS) with 37 in *; lia). revert H. generalize (Z.to_nat b). intros n H.
  do 50 (destruct n; [cbn in H; first [discriminate|reflexivity]|]). destruct n; discriminate.
Qed.
Theorem step_same v g : keeps v g -> gc_fine code v -> agree (vm_step flist powf code size v) (vm_step flist powf code size g).
Proof.
  intros HK [_ [_ HS]]. unfold vm_step. rewrite (keeps_state _ _ HK), (keeps_pc _ _ HK). destruct (is_ready (v_state v)) eqn:ER; [|exact HK].
  destruct (opcode_of _) as [o|] eqn:EO; [|apply keeps_err, HK]. assert (HD : o = I_PUSHS \/ o <> I_PUSHS) by (destruct o; auto; right; discriminate). destruct HD as [->|HN]; [|apply (s_exec o HN); exact HK].
  assert (HA : about_to code v I_PUSHS).
  { split; [destruct (v_state v); try discriminate; reflexivity|]. apply opcode_pushs, EO. }
  apply HS in HA. cbn [Vm.exec]. rewrite !inc_eq, (keeps_pc _ _ HK). destruct (pc_ok _ _); [|apply keeps_err, keeps_bump, HK].
  pose proof (keeps_bump _ _ HK) as HB. unfold get_arg. rewrite (keeps_pc _ _ HB). destruct (pc_ok _ _); [|apply keeps_err, HB].
  apply s_pushs; [apply keeps_set_pc, HB|]. replace (word code (v_pc (bump v))) with (instr_arg code v); [exact HA|].
  unfold word, instr_arg. cbn [v_pc bump set_pc set_oldpc]. replace (v_pc v + 1 + 1) with (v_pc v + 2) by lia. replace (v_pc v + 1 + 2) with (v_pc v + 3) by lia. replace (v_pc v + 1 + 3) with (v_pc v + 4) by lia. reflexivity.
Qed.
Lemma slots_keeps v g : keeps v g -> slots_set v -> slots_set g.
Proof. intros HK H f Hf. apply H. rewrite (keeps_with _ _ HK) in Hf. exact Hf. Qed.
Theorem steps_same gc : (forall k w, slots_set w -> strings_ok (v_str w) -> exists w', gc k w = Ok w' /\ keeps w w') ->
  forall n v g, keeps v g -> (forall j w, (j < n)%nat -> vm_steps flist powf code size j v = Ok w -> gc_fine code w) ->
  agree (vm_steps flist powf code size n v) (gc_steps flist powf code size gc n g).
Proof.
  intros HG n. induction n as [|n IH]; intros v g HK HA; cbn [vm_steps gc_steps]; [exact HK|].
  pose proof (HA 0%nat v (Nat.lt_0_succ n) eq_refl) as HV. destruct HV as (H1 & H2 & H3).
  destruct (HG (S n) g (slots_keeps _ _ HK H1) (k_sane _ _ _ HK H2)) as (g' & EG & HK'). rewrite EG. cbn [bind].
  apply agree_bind; [apply step_same; [eapply keeps_trans; eauto|split; auto]|]. intros v1 g1 E1 _ HK1. apply IH; auto. intros j w Hj Hw. apply (HA (S j)); [lia|]. cbn [vm_steps]. rewrite E1. exact Hw.
Qed.
End Step.
End P.
