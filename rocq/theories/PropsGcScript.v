(** Scripts run with the garbage collector do what the language says: C97. *)
From Coq Require Import String.
From Verif Require Import Base ListLemmas Float Dict PDict Strman StrmanSpec Obj Instr Vm VmSpec VmProofs Text Lex LexSpec LexProofs Asm AsmSpec AsmProofs Load Parser Source CompileSpec PgBase PgScript GenOk GenStep GenRun PropsLex PropsCompile PropsScript GcSpec Gc GcProofs GcMark.
Local Open Scope Z_scope. Local Open Scope list_scope.

(** ** An execution that calls no C function does not depend on them *)
Section More.
Context {X : Type}.
Variable flist : list (vm X -> res (vm X)).
Variable powf : libm.
Variable code : Z -> Z.
Variable size : Z.
Definition uncalled : list (vm X -> res (vm X)) := map (fun _ _ => UB) flist.
Definition upto {A} (a b : res A) : Prop := forall v, a = Ok v -> b = Ok v.
Lemma upto_refl {A} (a : res A) : upto a a. Proof. intros v H. exact H. Qed.
Lemma upto_bind {A B} a b (f g : A -> res B) : upto a b -> (forall v, upto (f v) (g v)) -> upto (bind a f) (bind b g).
Proof. intros H HF v Hv. destruct a as [w| | |]; cbn [bind] in Hv; try discriminate. rewrite (H w eq_refl). cbn [bind]. apply HF, Hv. Qed.
Lemma call_upto v isswrm : upto (vm_call uncalled v isswrm) (vm_call flist v isswrm).
Proof.
  unfold vm_call, stack_assert. destruct (zlen (stack v) - 1 <? 0); [apply upto_refl|]. unfold type_assert. apply upto_bind; [apply upto_refl|]. intro o.
  all: destruct (otype o =? T_INT); [|apply upto_refl]; destruct (stack v) as [|[] s0]; try apply upto_refl.
  all: destruct (z + 1 >=? 2 ^ 31); [apply upto_refl|]. all: destruct (zlen (stack (set_stack v s0)) - (z + 1) <? 0); [apply upto_refl|].
  all: apply upto_bind; [apply upto_refl|]; intro c; destruct (otype c =? T_CLOSURE); [|apply upto_refl]. all: apply upto_bind; [apply upto_refl|]; intros []; try apply upto_refl.
  all: replace (zlen uncalled) with (zlen flist) by (unfold uncalled, zlen; rewrite map_length; reflexivity).
  all: destruct (negb native && (zlen flist <=? ref))%bool; [apply upto_refl|]; destruct native; [apply upto_refl|]; destruct (ref <? 0); [apply upto_refl|].
  all: unfold uncalled; rewrite nth_error_map; destruct (nth_error flist (Z.to_nat ref)); intros w H; discriminate H.
Qed.
Lemma step_upto v : upto (vm_step uncalled powf code size v) (vm_step flist powf code size v).
Proof.
  unfold vm_step. destruct (is_ready (v_state v)); [|apply upto_refl]. destruct (opcode_of (code (v_pc v))) as [o|]; [|apply upto_refl].
  destruct o; try apply upto_refl; cbn [Vm.exec]; unfold inc_pc, if_ready; (match goal with |- upto (if ?b then _ else _) _ => destruct b end; [|apply upto_refl]); (apply upto_bind; [apply call_upto|intro; apply upto_refl]).
Qed.
Lemma uncalled_respects xroots : Forall (respects xroots) uncalled.
Proof. apply Forall_forall. intros f Hf. apply in_map_iff in Hf as (g & <- & _). intros v w _. exact I. Qed.
End More.
Lemma nop_upto {X} (flist : list (vm X -> res (vm X))) powf buf fuel : forall v, upto (run_to_nop (uncalled flist) powf buf fuel v) (run_to_nop flist powf buf fuel v).
Proof.
  induction fuel as [|f IH]; intro v; [apply upto_refl|]. cbn [run_to_nop]. apply upto_bind; [apply upto_refl|]. intro b. destruct (b =? opnum I_NOP).
  - apply upto_bind; [apply step_upto|intro; apply upto_refl].
  - apply upto_bind; [apply step_upto|]. intro v1. destruct (is_ready (v_state v1)); [apply IH|apply upto_refl].
Qed.
Lemma load_upto {X} (flist : list (vm X -> res (vm X))) powf buf fuel v : upto (load_code (uncalled flist) powf buf fuel v) (load_code flist powf buf fuel v).
Proof.
  unfold load_code. apply upto_bind; [apply upto_refl|]. intro a. apply upto_bind; [apply upto_refl|]. intro b. apply upto_bind; [apply upto_refl|]. intros [sm i]. apply nop_upto.
Qed.

(** ** Executions with the collector *)
Section Exec.
Context {X : Type}.
Variable xroots : X -> list obj.
Variable flist : list (vm X -> res (vm X)).
Variable powf : libm.
Variable code : Z -> Z.
Variable size : Z.
Variable due : nat -> bool.
Variable junk : table -> table.
Notation steps := (vm_steps (uncalled flist) powf code size).
Notation run_gc := (gc_execute xroots flist powf code size due junk).
Lemma keeps_ready v w : keeps xroots v w -> v_state w = v_state v.
Proof. intro H. rewrite (k_rest _ _ _ H). reflexivity. Qed.
Lemma follow i v w v1 : keeps xroots v w -> v_state v = S_READY -> gc_fine code v -> vm_step (uncalled flist) powf code size v = Ok v1 ->
  exists w1, gc_step xroots flist powf code size due junk i w = Ok w1 /\ keeps xroots v1 w1.
Proof.
  intros HK HR HF HS. unfold gc_step. rewrite (keeps_ready _ _ HK), HR. cbn [is_ready]. pose proof HF as (F1 & F2 & _).
  destruct (gc_keeps xroots (due i) junk w) as (g & EG & HG); [eapply slots_keeps; eauto|eapply k_sane; eauto|]. rewrite EG. cbn [bind].
  pose proof (step_same xroots (uncalled flist) powf code size (uncalled_respects flist xroots) v g (keeps_trans _ _ _ _ HK HG) HF) as HA. rewrite HS in HA.
  destruct (vm_step (uncalled flist) powf code size g) as [w1| | |] eqn:E; try contradiction. exists w1. split; [apply step_upto, E|exact HA].
Qed.
Lemma follow_stop k : forall i v w v', keeps xroots v w -> v_state v = S_READY -> path (uncalled flist) powf code size (gc_fine code) k v v' -> v_state v' <> S_READY ->
  exists w', (forall fuel, (k <= fuel)%nat -> run_gc fuel i w = Ok w') /\ keeps xroots v' w'.
Proof.
  induction k as [|k IH]; intros i v w v' HK HR [HP HF] HS.
  - cbn [vm_steps] in HP. congruence.
  - pose proof (HF 0%nat v ltac:(lia) eq_refl) as HF0. cbn [vm_steps] in HP. destruct (vm_step (uncalled flist) powf code size v) as [v1| | |] eqn:E; cbn [bind] in HP; try discriminate.
    destruct (follow i v w v1 HK HR HF0 E) as (w1 & E1 & K1). destruct (is_ready (v_state v1)) eqn:ER.
    + assert (ES : v_state v1 = S_READY) by (destruct (v_state v1); try discriminate; reflexivity). destruct (IH (S i) v1 w1 v' K1 ES) as (w' & EW & KW); auto.
      { split; [exact HP|]. intros j u Hj Hu. apply (HF (S j)); [lia|]. cbn [vm_steps]. rewrite E. exact Hu. }
      exists w'. split; auto. intros [|fuel] Hf; [lia|]. cbn [gc_execute]. rewrite E1. cbn [bind]. rewrite (keeps_ready _ _ K1), ER. apply EW. lia.
    + assert (ES : v_state v1 <> S_READY) by (intro Q; rewrite Q in ER; discriminate). exists w1. split.
      * intros [|fuel] Hf; [lia|]. cbn [gc_execute]. rewrite E1. cbn [bind]. rewrite (keeps_ready _ _ K1), ER. reflexivity.
      * rewrite steps_stopped in HP by exact ES. inversion HP; subst. exact K1.
Qed.
Lemma follow_on : forall fuel i v w, keeps xroots v w -> (forall k, exists v', path (uncalled flist) powf code size (gc_fine code) k v v' /\ v_state v' = S_READY) -> run_gc fuel i w = Hang.
Proof.
  induction fuel as [|fuel IH]; intros i v w HK H; [reflexivity|]. cbn [gc_execute]. destruct (H 1%nat) as (v1 & [HP HF] & HR). pose proof (HF 0%nat v ltac:(lia) eq_refl) as HF0.
  cbn [vm_steps] in HP. destruct (vm_step (uncalled flist) powf code size v) as [v0| | |] eqn:E; cbn [bind] in HP; try discriminate. inversion HP; subst v0. clear HP.
  assert (HV : v_state v = S_READY). { destruct (v_state v) eqn:EV; auto; exfalso; unfold vm_step in E; rewrite EV in E; cbn [is_ready] in E; congruence. }
  destruct (follow i v w v1 HK HV HF0 E) as (w1 & E1 & K1). rewrite E1. cbn [bind]. rewrite (keeps_ready _ _ K1), HR. cbn [is_ready]. apply (IH (S i) v1 w1 K1).
  intro k. destruct (H (S k)) as (v' & [HP' HF'] & HR'). cbn [vm_steps] in HP'. rewrite E in HP'. exists v'. split; auto. split; [exact HP'|]. intros j u Hj Hu. apply (HF' (S j)); [lia|]. cbn [vm_steps]. rewrite E. exact Hu.
Qed.
End Exec.

(** ** C97 *)
(** What executing a script with the collector does when the meaning of the script is [o].  The tables that
    can be reached from the global variables are those of the meaning, the strings there are those that were there at the start; nothing is
    said about the others, which may be deleted. *)
Definition returns_gc {X} xroots flist powf code due junk (sid : str -> Z) (ws : list str) (v : vm X) (o : out (sst X)) : Prop :=
  match o with
  | Done st => exists k g, (forall fuel, (k <= fuel)%nat -> gc_execute xroots flist powf (byte code) (zlen code) due junk fuel 0 v = Ok g) /\
      v_state g = S_DONE /\ v_error g = E_NONE /\ (forall x, In x ws -> global g (sid x) = s_glob st x) /\
      (forall x a, In x ws -> reach (s_heap st) [s_glob st x] (OTab a) -> table_of (v_heap g) a = table_of (s_heap st) a) /\
      (forall x i s, In x ws -> reach (s_heap st) [s_glob st x] (OStr i s) -> string_of (v_str g) i = string_of (v_str v) i) /\
      v_stacks g = [[]] /\ v_ext g = v_ext v
  | Fail e => exists k g, (forall fuel, (k <= fuel)%nat -> gc_execute xroots flist powf (byte code) (zlen code) due junk fuel 0 v = Ok g) /\ v_state g = S_ERROR /\ v_error g = e
  | Unspec | More => True
  end.
Lemma reach_more h R R' o : (forall y, In y R -> reach h R' y) -> reach h R o -> reach h R' o.
Proof. intros H HR. induction HR; [auto|eapply reach_clos; eauto|eapply reach_key; eauto|eapply reach_val; eauto]. Qed.
Lemma reach_nil h o : reach h [ONil] o -> o = ONil.
Proof. induction 1; try discriminate. destruct H as [<-|[]]. reflexivity. Qed.
Lemma reach_global {X} xroots (v : vm X) i o : o <> ONil -> reach (v_heap v) [global v i] o -> reached xroots v o.
Proof.
  intros HN H. unfold global in H. destruct (gsym_get (v_gsyms v) i) as [y|] eqn:E; [|apply reach_nil in H; congruence].
  eapply reach_more; [|exact H]. intros z [<-|[]]. apply reach_root. unfold roots. do 2 (apply in_or_app; right). apply in_or_app. left. eapply gsym_get_in; eauto.
Qed.

(** The theorem C94 for executions in which the collector of the VM runs: before any of the steps, as often as it
    wants ([due]), whatever is then found where the deleted tables were ([junk]), and whatever C
    functions are registered. *)
Theorem C97_script_with_collector :
  forall strtof open name path text ps ts l,
  open name = Some (path, text) -> text ++ [NL] = layout ps -> reads open [path] path [] ps ts ->
  (forall t, In t ts -> t_line t < 2 ^ 63 /\ t_col t < 2 ^ 63 /\ plain_path (t_file t)) ->
  spells_script ts l -> ok_script strtof l = true ->
  NoDup (map fn_id (functions l)) -> zlen (nodup (list_eq_dec Z.eq_dec) (words l)) <= 65534 ->
  exists k0 asm, (forall k, (k0 <= k)%nat -> bzzparse open k [] name = Ok (Some asm)) /\
  (zlen asm < 2 ^ 31 ->
   exists code dbg sid ref,
     buzz_asm strtof asm = Ok (0, code, dbg) /\
     (forall f h, In f (functions l) -> In h (functions l) -> ref (fn_id f) = ref (fn_id h) -> f = h) /\
     exists m, forall X (x : X) xroots flist powf fuel, (m <= fuel)%nat ->
     exists v, load_code flist powf code fuel (vm_new x) = Ok (v, true) /\
       (forall s, In s (words l) -> sm_get (v_str v) (sid s) = Some s) /\
       forall due junk,
       (forall n, returns_gc xroots flist powf code due junk sid (words l) v (run strtof powf sid ref (functions l) no_c n l (start ref l (v_str v) x))) /\
       ((forall n, run strtof powf sid ref (functions l) no_c n l (start ref l (v_str v) x) = More) ->
        forall fuel, gc_execute xroots flist powf (byte code) (zlen code) due junk fuel 0 v = Hang)).
Proof.
  intros strtof open name fp text ps ts l HO HT HR HP HS HOK HID HW.
  destruct (C54_tokens_partial open name fp text ps ts HO HT HR) as (lx & n0 & HN & HL).
  assert (HF : Forall fine_token (filter no_statend ts)).
  { apply Forall_forall. intros t Ht. apply filter_In in Ht. destruct Ht as [Ht Hs]. pose proof (reads_lexed _ _ _ _ _ _ HR) as HX. rewrite Forall_forall in HX. destruct (HX t Ht) as (A & B & C & D).
    destruct (HP t Ht) as (P1 & P2 & P3 & P4). split; auto. split; [intro E; unfold no_statend in Hs; rewrite E in Hs; discriminate|]. split; auto. cbn [dbg_ok]. split; [lia|]. split; [lia|]. split; auto. }
  destruct (compiled strtof ts false l HS HOK HF HID ltac:(lia)) as (k0 & asm & HC & H). exists (Nat.max n0 k0), asm. split.
  { intros k Hk. unfold bzzparse. rewrite HN, HL by lia. cbn [bind]. apply HC. lia. }
  intro HA. destruct (H HA) as (code & dbg & sid & ref & H1 & H2 & _ & m & H3). exists code, dbg, sid, ref. split; auto. split; auto. exists m. intros X x xroots flist powf fuel Hf.
  destruct (H3 X x (uncalled flist) powf fuel Hf) as (v & V1 & V2 & V3 & V4 & V5 & V6 & _ & _ & HD & _). exists v. split; [apply load_upto, V1|]. split; auto. intros due junk.
  assert (HQ : forall k v', path (uncalled flist) powf (byte code) (zlen code) (fun w => zlen (nodup (list_eq_dec Z.eq_dec) (words l)) <= 65534 -> gc_fine (byte code) w) k v v' ->
    path (uncalled flist) powf (byte code) (zlen code) (gc_fine (byte code)) k v v').
  { intros k v' [Q1 Q2]. split; auto. intros j w Hj Hw. apply (Q2 j); auto. }
  split.
  - intro n. specialize (HD n). destruct (run strtof powf sid ref (functions l) no_c n l (start ref l (v_str v) x)) as [st|e| |] eqn:ER; cbn [returns_gc does_path] in *; auto.
    + destruct HD as (k & v' & D1 & D2 & D3 & D4 & D5 & D6 & D7 & D8 & D9 & _). apply no_c_keeps in ER as [ER1 ER2]. cbn [start s_ext s_str] in ER1, ER2. rewrite ER1 in D8. rewrite ER2, <- V6 in D9. apply HQ in D1.
      destruct (follow_stop xroots flist powf (byte code) (zlen code) due junk k 0 v v v' (keeps_refl _ v) V3 D1 ltac:(congruence)) as (g & EG & HK).
      assert (HGl : forall y, global g y = global v' y) by (intro y; unfold global; rewrite (k_rest _ _ _ HK); reflexivity).
      exists k, g. split; [exact EG|]. split; [rewrite (keeps_ready _ _ _ HK); exact D2|]. split; [rewrite (k_rest _ _ _ HK); exact D3|]. split; [intros y Hy; rewrite HGl; apply D4; auto|].
      split; [|split; [|split; [rewrite (k_rest _ _ _ HK); exact D6|rewrite (k_rest _ _ _ HK); exact D9]]].
      * intros y a Hy HRc. rewrite <- D5 in HRc |- *. rewrite <- D4 in HRc by auto. apply (k_tabs _ _ _ HK). eapply reach_global; [discriminate|exact HRc].
      * intros y i s Hy HRc. rewrite <- D5 in HRc. rewrite <- D4 in HRc by auto. rewrite <- D8. apply (k_strs _ _ _ HK i s). eapply reach_global; [discriminate|exact HRc].
    + destruct HD as (k & v' & D1 & D2 & D3). apply HQ in D1.
      destruct (follow_stop xroots flist powf (byte code) (zlen code) due junk k 0 v v v' (keeps_refl _ v) V3 D1 ltac:(congruence)) as (g & EG & HK).
      exists k, g. split; [exact EG|]. split; [rewrite (keeps_ready _ _ _ HK); exact D2|]. rewrite (k_rest _ _ _ HK). exact D3.
  - intros HM f. apply (follow_on xroots flist powf (byte code) (zlen code) due junk f 0 v v (keeps_refl _ v)). intro k. specialize (HD k). rewrite HM in HD. destruct HD as (k' & v' & Hk & D1 & D2). apply HQ in D1. destruct D1 as [D1 D3].
    destruct (ready_before _ _ _ _ _ k k' v v' Hk D1 D2) as (v1 & E1 & R1). exists v1. split; auto. split; auto. intros j w Hj. apply D3. lia.
Qed.
Print Assumptions C97_script_with_collector.

(** The files of [C94_file_case] meet the hypotheses; executed with a collection before every step, the script
    gives 42 to x, the string with number 1. *)
Definition file_code : list Z := match buzz_asm no_strtof_ file_asm with Ok (_, c, _) => c | _ => [] end.
Definition file_vm : vm unit := match load_code [] no_powf file_code 10 (vm_new tt) with Ok (v, _) => v | _ => vm_new tt end.
Example C97_case :
  zlen (nodup (list_eq_dec Z.eq_dec) (words file_script)) <= 65534 /\
  (exists dbg, buzz_asm no_strtof_ file_asm = Ok (0, file_code, dbg)) /\
  (exists b, load_code [] no_powf file_code 10 (vm_new tt) = Ok (file_vm, b)) /\
  exists g, gc_execute (fun _ => []) [] no_powf (byte file_code) (zlen file_code) (fun _ => true) (fun _ => []) 100 0 file_vm = Ok g /\
    v_state g = S_DONE /\ global g 1 = OInt 42 /\ sm_get (v_str g) 1 = Some (bs "x").
Proof.
  split; [vm_compute; discriminate|]. split; [eexists; vm_compute; reflexivity|]. split; [eexists; vm_compute; reflexivity|].
  eexists. split; [vm_compute; reflexivity|]. vm_compute. repeat split.
Qed.
