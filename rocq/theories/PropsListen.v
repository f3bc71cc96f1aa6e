(** Properties of broadcasts and listeners: C55. *)
From Coq Require Import String.
From Verif Require Import Base ListLemmas Float Dict PDict DictProofs PDictKeys Strman StrmanSpec StrmanProofs Msg MsgProofs Obj Wire WireSpec WireProofs
  PropsWire Text Instr Vm VmSpec VmProofs VmFrames VmExt PropsVm PropsVmFrames Strlib PropsStrlib CFunSpec CFunProofs InMsg InMsgSpec InMsgProofs
  Messages MessagesSpec MessagesProofs Listen ListenSpec ListenProofs.
Local Open Scope Z_scope.
Local Open Scope list_scope.

(** ** Who listens *)
(** After any history of registrations, the listener of a topic is the one registered last for it and not
    ignored since. *)
Theorem C55_last_listener :
  forall (v : lvm) hist topic, listens v hist -> 0 <= topic < 65536 ->
    lis_get (lx_listen (v_ext v)) topic = listener hist topic.
Proof. intros v hist topic [HO HE] Ht. rewrite HE. apply lis_hist; auto. Qed.
Print Assumptions C55_last_listener.

(** neighbors.listen(topic, f), neighbors.ignore(topic) and neighbors.broadcast(topic, value), called by
    a script: they return nil and change nothing but listeners or waiting broadcasts. *)
Theorem C55_listen_call :
  forall (v : lvm) ra s rest L sid t c hist,
    called v [OStr sid t; c] ra s rest L -> otype c = T_CLOSURE -> 0 <= sid < 65536 -> listens v hist ->
    exists v', nb_listen v = Ok v' /\ listens v' (LListen sid c :: hist) /\
      exists d, gives (set_ext v (set_listen (v_ext v) d)) ra s rest L ONil v'.
Proof.
  intros v ra s rest L sid t c hist HC Hc Hs [HO HE]. call_start HC. unfold nb_listen, lnum_assert. rewrite (lnum_ok _ _ _ HL). cbn [bind].
  change (zlen [self; OStr sid t; c] - 1 =? 2) with true. cbv beta iota.
  rewrite (lload_ok v _ L 1 (OStr sid t) HL ltac:(lia) eq_refl). cbn [bind]. unfold type_assert at 1. rewrite ?top_push. cbn [bind]. change (otype (OStr sid t) =? T_STRING) with true. cbv beta iota.
  rewrite (lload_ok (push v (OStr sid t)) _ L 2 c HL ltac:(lia) eq_refl). cbn [bind]. unfold type_assert. rewrite ?top_push. cbn [bind]. rewrite Hc, Z.eqb_refl. cbv beta iota.
  change (stack_at (push (push v (OStr sid t)) c) 2) with (Ok (OStr sid t)). cbn [bind].
  erewrite ret0_ok; [|cbn; rewrite HS; reflexivity|cbn; exact HL]. eexists. split; [reflexivity|]. split.
  - split; [constructor; auto|]. cbn. rewrite HE. reflexivity.
  - eexists. constructor; cbn; auto.
Qed.
Print Assumptions C55_listen_call.
Theorem C55_ignore_call :
  forall (v : lvm) ra s rest L sid t hist,
    called v [OStr sid t] ra s rest L -> 0 <= sid < 65536 -> listens v hist ->
    exists v', nb_ignore v = Ok v' /\ listens v' (LIgnore sid :: hist) /\
      exists d, gives (set_ext v (set_listen (v_ext v) d)) ra s rest L ONil v'.
Proof.
  intros v ra s rest L sid t hist HC Hs [HO HE]. call_start HC. unfold nb_ignore, lnum_assert. rewrite (lnum_ok _ _ _ HL). cbn [bind].
  change (zlen [self; OStr sid t] - 1 =? 1) with true. cbv beta iota.
  rewrite (lload_ok v _ L 1 (OStr sid t) HL ltac:(lia) eq_refl). cbn [bind]. unfold type_assert. rewrite ?top_push. cbn [bind]. change (otype (OStr sid t) =? T_STRING) with true. cbv beta iota.
  erewrite ret0_ok; [|cbn; rewrite HS; reflexivity|cbn; exact HL]. eexists. split; [reflexivity|]. split.
  - split; [constructor; auto|]. cbn. rewrite HE. reflexivity.
  - eexists. constructor; cbn; auto.
Qed.
Print Assumptions C55_ignore_call.
(** The value is copied at the call: what is sent later are the contents [w] it has now. *)
Theorem C55_broadcast_call :
  forall (v : lvm) ra s rest L sid t o w,
    called v [OStr sid t; o] ra s rest L -> repr 0 (v_heap v) o w ->
    exists n, forall fuel, (n <= fuel)%nat ->
    exists v', nb_broadcast fuel v = Ok v' /\ lx_out (v_ext v') = lx_out (v_ext v) ++ [(WStr sid t, w)] /\
      gives (set_ext v (set_out (v_ext v) (lx_out (v_ext v')))) ra s rest L ONil v'.
Proof.
  intros v ra s rest L sid t o w HC HR. destruct (snapshot_ok _ _ _ _ HR) as (n & Hn). exists (S n). intros [|fuel] Hf; [lia|]. call_start HC. unfold nb_broadcast, lnum_assert. rewrite (lnum_ok _ _ _ HL). cbn [bind].
  change (zlen [self; OStr sid t; o] - 1 =? 2) with true. cbv beta iota.
  rewrite (lload_ok v _ L 1 (OStr sid t) HL ltac:(lia) eq_refl). cbn [bind]. unfold type_assert. rewrite ?top_push. cbn [bind]. change (otype (OStr sid t) =? T_STRING) with true. cbv beta iota.
  rewrite (lload_ok (push v (OStr sid t)) _ L 2 o HL ltac:(lia) eq_refl). cbn [bind].
  change (stack_at (push (push v (OStr sid t)) o) 2) with (Ok (OStr sid t)). rewrite ?top_push. cbn [bind].
  change (snapshot (S fuel) (v_heap (push (push v (OStr sid t)) o)) (OStr sid t)) with (Ok (WStr sid t)). cbn [bind].
  change (v_heap (push (push v (OStr sid t)) o)) with (v_heap v). rewrite Hn by lia. cbn [bind].
  erewrite ret0_ok; [|cbn; rewrite HS; reflexivity|cbn; exact HL]. eexists. split; [reflexivity|]. split; [reflexivity|].
  constructor; cbn; auto.
Qed.
Print Assumptions C55_broadcast_call.
(** Nothing else in a script changes the listeners: an instruction leaves them alone, or it calls a
    registered C function. *)
Theorem C55_listeners_only_by_c_functions :
  forall (flist : list (lvm -> res lvm)) powf code size (v v' : lvm),
    vm_step flist powf code size v = Ok v' ->
    v_ext v' = v_ext v \/
    exists f v5 v6, In f flist /\ v_ext v5 = v_ext v /\ f v5 = Ok v6 /\ v_ext v' = v_ext v6.
Proof. intros flist powf code size v v' H. apply step_ext in H. exact H. Qed.
Print Assumptions C55_listeners_only_by_c_functions.

(** ** A broadcast arrives *)
Section D.
Variable flist : list (lvm -> res lvm).
Variable powf : libm.
Variable code : Z -> Z.
Variable size : Z.
Variable fuel : nat.
Variable has_vstig : Z -> bool.
Variable other : lvm -> Z -> wmsg -> res lvm.
Notation handle := (handle flist powf code size fuel has_vstig other).

Lemma listening_dec (v : lvm) j : (match lis_get (lx_listen (v_ext v)) j with Some _ => true | None => false end) = true <-> lis_get (lx_listen (v_ext v)) j <> None.
Proof. destruct (lis_get _ _); split; congruence. Qed.
End D.

(** An object [o] with contents [w], sent under topic [t] by one robot and received by a robot [v] that
    listens to [t]: the listener is entered once, with the topic, an object with the same contents (new tables; string
    ids are those of the receiver) and the id of the sender; all else is as before the message.  After its
    return, stacks, local symbols and program counter are as before.  Missing from the
    full statement: listeners that are C functions, after which an instruction of the script is executed (C64). *)
Theorem C55_delivery_partial :
  forall h0 o w i t,
    repr 0 h0 o w -> wok w -> wok (WStr i t) ->
    exists buf, enc_msg (WBroadcast (WStr i t) w) = Ok buf /\
    forall flist powf code size fuel has_vstig other (v v' : lvm) ops outs rid j ref act,
      Forall c_function_ok flist -> v_state v = S_READY -> v_stacks v <> [] ->
      smhist_ok sm_new ops -> sm_run sm_new ops = Ok (v_str v, outs) ->
      sm_live (v_str v) + zlen buf < 65534 -> zlen buf < 2 ^ 32 - 65536 ->
      0 <= j < 65536 -> sm_get (v_str v) j = Some t ->
      lis_get (lx_listen (v_ext v)) j = Some (OClos true ref act) ->
      handle flist powf code size fuel has_vstig other v rid buf = Ok v' -> v_state v' = S_READY ->
      exists v1 x w' r v2,
        entered v1 ref (act ++ [OStr j t; x; OInt rid]) /\
        (exists new, v_heap v1 = v_heap v ++ new) /\ repr (zlen (v_heap v)) (v_heap v1) x w' /\ weq w w' /\ wlive (v_str v1) w' /\
        v_gsyms v1 = v_gsyms v /\ v_ext v1 = v_ext v /\ keeps (v_str v) (v_str v1) /\
        returned flist powf code size v1 v2 r /\
        v_stacks v' = v_stacks v /\ v_lsymts v' = v_lsymts v /\ v_pc v' = v_pc v /\
        v_heap v' = v_heap v2 /\ v_str v' = v_str v2 /\ v_gsyms v' = v_gsyms v2 /\ v_ext v' = v_ext v2.
Proof.
  intros h0 o w i t HRp HW HT.
  assert (HB : exists buf, enc_msg (WBroadcast (WStr i t) w) = Ok buf).
  { destruct (topic_read (fun _ => true) (fun _ => true) i t w HT HW) as (buf & E & _). eauto. }
  destruct HB as (buf & EB). exists buf. split; [exact EB|].
  intros flist powf code size fuel has_vstig other v v' ops outs rid j ref act HC HR HN Ho Hr HL HB Hj Gj Lj H HR'.
  set (lis := fun sid => match lis_get (lx_listen (v_ext v)) sid with Some _ => true | None => false end).
  destruct (topic_read lis has_vstig i t w HT HW) as (buf' & E & HD). rewrite EB in E. inversion E; subst buf'. clear E.
  destruct (HD (v_str v) HB (good_run _ _ _ _ Ho Hr HL)) as (j' & sm1 & w' & sm2 & Hj' & Gj' & K1 & G1 & Q & W & K2 & G2 & ER).
  assert (j' = j) by (eapply (sm_get_inj sm1 0); eauto). subst j'.
  unfold Listen.handle in H. fold lis in H. rewrite ER in H. assert (EL : lis j = true) by (unfold lis; rewrite Lj; auto). rewrite EL in H. cbn [bind] in H. cbv zeta in H.
  change (v_ext (set_str v sm2)) with (v_ext v) in H. rewrite Lj in H. change (v_heap (set_str v sm2)) with (v_heap v) in H.
  destruct (import_ok w' (ex_intro _ h0 (ex_intro _ o (ex_intro _ w (conj HRp Q)))) (v_heap v)) as (x & new & EI & RI). rewrite EI in H.
  match type of H with context [closure_call _ _ _ _ _ ?u 3] => set (vc := u) in H end.
  destruct (closure_call flist powf code size fuel vc 3) as [v2| | |] eqn:ECl; cbn [bind] in H; try discriminate. inversion H; subst v'. clear H.
  assert (HR2 : v_state v2 = S_READY).
  { unfold vm_pop in HR'. destruct (stack v2); [discriminate|exact HR']. }
  destruct (C64_closure_call_balanced_partial lext flist powf size code fuel vc v2 [OStr j t; x; OInt rid] ref act (stack v) HC HR eq_refl ECl HR2)
    as (r & v1 & A1 & A2 & A3 & A4 & A5 & A6 & A7 & A8 & A9).
  exists v1, x, w', r, v2. split; [exact A4|]. split; [exists new; exact A5|]. split; [rewrite A5; exact RI|]. split; [exact Q|]. split; [rewrite A6; exact W|].
  split; [rewrite A7; reflexivity|]. split; [rewrite A8; reflexivity|]. split; [rewrite A6; exact (keeps_trans _ _ _ K1 K2)|]. split; [exact A9|].
  assert (ES : stack v2 = r :: stack v) by (unfold stack at 1; rewrite A1; reflexivity).
  assert (EP : vm_pop v2 = set_stack v2 (stack v)) by (unfold vm_pop, dpop; rewrite ES; reflexivity). rewrite EP.
  split; [|split; [exact A2|split; [exact A3|repeat split]]].
  cbn. rewrite A1. cbn. unfold vc. cbn. destruct (v_stacks v) as [|s0 st] eqn:E0; [congruence|]. unfold stack. rewrite E0. reflexivity.
Qed.
Print Assumptions C55_delivery_partial.

(** Nobody listens to the topic: nothing happens, but strings may be added. *)
Theorem C55_no_listener :
  forall w i t,
    wok w -> wok (WStr i t) ->
    exists buf, enc_msg (WBroadcast (WStr i t) w) = Ok buf /\
    forall flist powf code size fuel has_vstig other (v : lvm) ops outs rid,
      smhist_ok sm_new ops -> sm_run sm_new ops = Ok (v_str v, outs) ->
      sm_live (v_str v) + zlen buf < 65534 -> zlen buf < 2 ^ 32 - 65536 ->
      (forall j, lis_get (lx_listen (v_ext v)) j <> None -> 0 <= j < 65536 /\ exists u, sm_get (v_str v) j = Some u /\ u <> t) ->
      exists sm, handle flist powf code size fuel has_vstig other v rid buf = Ok (set_str v sm) /\ keeps (v_str v) sm.
Proof.
  intros w i t HW HT.
  assert (HB : exists buf, enc_msg (WBroadcast (WStr i t) w) = Ok buf).
  { destruct (topic_read (fun _ => true) (fun _ => true) i t w HT HW) as (buf & E & _). eauto. }
  destruct HB as (buf & EB). exists buf. split; [exact EB|].
  intros flist powf code size fuel has_vstig other v ops outs rid Ho Hr HL HB HN.
  set (lis := fun sid => match lis_get (lx_listen (v_ext v)) sid with Some _ => true | None => false end).
  destruct (topic_read lis has_vstig i t w HT HW) as (buf' & E & HD). rewrite EB in E. inversion E; subst buf'. clear E.
  destruct (HD (v_str v) HB (good_run _ _ _ _ Ho Hr HL)) as (j' & sm1 & w' & sm2 & Hj' & Gj' & K1 & G1 & Q & W & K2 & G2 & ER).
  assert (EL : lis j' = false).
  { destruct (lis j') eqn:E; auto. apply (proj1 (listening_dec v j')) in E. destruct (HN _ E) as (Hj & u & Hu & Hne). specialize (K1 _ _ Hj Hu). congruence. }
  unfold handle. fold lis. rewrite ER, EL. cbn [bind]. eauto.
Qed.
Print Assumptions C55_no_listener.

(** ** All messages *)
(** Every message that was waiting is handled exactly once, or, when the VM stops with an error, is still
    waiting.  No C function and no other part of the handling may take messages from the queue. *)
Theorem C55_each_message_once :
  forall flist powf code size fuel has_vstig other rounds (v v' : lvm) pend,
    (forall f (u u' : lvm), In f flist -> f u = Ok u' -> lx_in (v_ext u') = lx_in (v_ext u)) ->
    (forall (u u' : lvm) r m, other u r m = Ok u' -> lx_in (v_ext u') = lx_in (v_ext u)) ->
    queued (lx_in (v_ext v)) pend ->
    process_inmsgs flist powf code size fuel has_vstig other rounds v = Ok v' ->
    exists msgs rest, handled flist powf code size fuel has_vstig other v msgs v' /\
      Permutation pend (msgs ++ rest) /\ queued (lx_in (v_ext v')) rest /\ (v_state v' = S_READY -> rest = []).
Proof.
  intros flist powf code size fuel has_vstig other rounds v v' pend HF HO. revert v pend.
  induction rounds as [|n IH]; intros v pend HQ H; cbn [process_inmsgs] in H; [discriminate|].
  destruct (queued_step _ _ HQ) as [[E ->]|(E & r & p & q & pend' & EX & HP & HQ')]; rewrite E in H.
  { inversion H; subst. exists [], []. split; [constructor|]. split; [auto|]. split; auto. }
  destruct (is_ready (v_state v)) eqn:ER; cbn [negb] in H.
  2: { inversion H; subst. exists [], pend. split; [constructor|]. split; [auto|]. split; auto. intro HR. rewrite HR in ER. discriminate. }
  rewrite EX in H. cbn [bind] in H. set (v0 := set_ext v (set_in (v_ext v) q)) in H.
  destruct (handle flist powf code size fuel has_vstig other v0 r p) as [v1| | |] eqn:EH; cbn [bind] in H; try discriminate.
  assert (HI : lx_in (v_ext v1) = q).
  { change q with (lx_in (v_ext v0)). clear - EH HF HO. unfold handle in EH.
    destruct (recv _ has_vstig p (v_str v0)) as [[pm sm]| | |]; cbn [bind] in EH; try discriminate. cbv zeta in EH.
    destruct pm as [m| |]; [|inversion EH; reflexivity|inversion EH; reflexivity].
    assert (HOm : other (set_str v0 sm) r m = Ok v1 -> lx_in (v_ext v1) = lx_in (v_ext v0)) by (intro HX; apply HO in HX; exact HX).
    destruct m as [tp vl| | | | |]; auto. destruct tp; auto. destruct (lis_get _ _) as [l|]; [|inversion EH; reflexivity].
    destruct (import vl _) as [x hh]. destruct (closure_call _ _ _ _ _ _ _) as [v2| | |] eqn:EC; cbn [bind] in EH; try discriminate. inversion EH.
    apply (closure_call_part flist powf code size lx_in) in EC; [|intros; eapply HF; eauto]. 
    assert (EP : v_ext (vm_pop v2) = v_ext v2) by (unfold vm_pop; destruct (stack v2); reflexivity). rewrite EP. rewrite EC. reflexivity. }
  rewrite <- HI in HQ'. destruct (IH v1 pend' HQ' H) as (msgs & rest & H1 & H2 & H3 & H4).
  exists ((r, p) :: msgs), rest. split; [econstructor; [destruct (v_state v); try discriminate; reflexivity|exact EH|exact H1]|].
  split; [rewrite HP; cbn [app]; constructor; auto|auto].
Qed.
Print Assumptions C55_each_message_once.

(** The functions are well behaved C functions. *)
Lemma within_set_ext {X} ra s rest L (v : vm X) x : within ra s rest L v -> within ra s rest L (set_ext v x).
Proof. intros [[st HS] [ls HL]]. split; eauto. Qed.
Lemma listen_c_function : c_function_ok nb_listen.
Proof. c_fun nb_listen. unfold nb_listen. ends_tac; try apply within_set_ext; eauto using within_lload. Qed.
Lemma ignore_c_function : c_function_ok nb_ignore.
Proof. c_fun nb_ignore. unfold nb_ignore. ends_tac; try apply within_set_ext; eauto using within_lload. Qed.
Lemma broadcast_c_function fuel : c_function_ok (nb_broadcast fuel).
Proof. c_fun (nb_broadcast fuel). unfold nb_broadcast. ends_tac; apply within_set_ext; ends_tac. Qed.

(** A robot that listens to "ab" (id 1) with a function that stores the value under the name with id 0.
    Robot 7 broadcasts a table under "ab". *)
Definition store_code : Z -> Z := mem_of [0; 0; 0; 37; 0; 0; 0; 0; 41; 2; 0; 0; 0; 29; 5; 0].
Definition two_strings : strman := match sm_run sm_new [SmReg (bs "x") true; SmReg (bs "ab") true] with Ok (sm, _) => sm | _ => sm_new end.
Definition listening_vm : lvm :=
  set_str (set_state (vm_new (mkLx (lis_set (pnew 10) 1 (OClos true 3 [ONil])) inq_new [])) S_READY E_NONE) two_strings.
Definition sent_heap : list table := [[[(OInt 1, OStr 4 (bs "cd"))]]].
Definition sent_obj : wobj := WTab [[(WInt 1, WStr 4 (bs "cd"))]].
Example C55_nontrivial :
  repr 0 sent_heap (OTab 0) sent_obj /\ wok sent_obj /\ wok (WStr 3 (bs "ab")) /\
  smhist_ok sm_new [SmReg (bs "x") true; SmReg (bs "ab") true] /\
  sm_run sm_new [SmReg (bs "x") true; SmReg (bs "ab") true] = Ok (v_str listening_vm, [SmId 0; SmId 1]) /\
  listens listening_vm [LListen 1 (OClos true 3 [ONil])] /\
  match enc_msg (WBroadcast (WStr 3 (bs "ab")) sent_obj) with
  | Ok buf =>
      match handle [] no_pow store_code 16 10 (fun _ => false) (fun _ _ _ => UB) listening_vm 7 buf with
      | Ok v' => v_state v' = S_READY /\ gsym_get (v_gsyms v') 0 = Some (OTab 0) /\
          tab_get (nth 0 (v_heap v') []) (OInt 1) = Ok (Some (OStr 2 (bs "cd")))
      | _ => False
      end
  | _ => False
  end.
Proof.
  split.
  { econstructor; [lia|lia|reflexivity|reflexivity|]. repeat constructor. }
  split.
  { apply wok_tab; cbn [concat app]; [vm_compute; discriminate| |repeat constructor].
    constructor; [|constructor]. cbn [fst snd]. split; [constructor; vm_compute; split; congruence|]. split; [exact I|]. constructor; [vm_compute; reflexivity|repeat constructor; discriminate]. }
  split. { constructor; [vm_compute; reflexivity|repeat constructor; discriminate]. }
  split. { vm_compute. auto. }
  split. { vm_compute. reflexivity. }
  split. { split; [repeat constructor; lia|reflexivity]. }
  vm_compute. auto.
Qed.
(** Two messages wait; both are handled. *)
Example C55_nontrivial_once :
  match enc_msg (WBroadcast (WStr 3 (bs "ab")) sent_obj) with
  | Ok buf =>
      let q := inq_append (inq_append inq_new 7 buf) 9 [5; 0; 1] in
      let v := set_ext listening_vm (set_in (v_ext listening_vm) q) in
      queued q [(7, buf); (9, [5; 0; 1])] /\
      match process_inmsgs [] no_pow store_code 16 10 (fun _ => false) (fun v _ _ => Ok v) 3 v with
      | Ok v' => v_state v' = S_READY
      | _ => False
      end
  | _ => False
  end.
Proof.
  destruct (enc_msg (WBroadcast (WStr 3 (bs "ab")) sent_obj)) as [buf| | |] eqn:E; vm_compute in E; try discriminate. inversion E; subst buf. clear E. cbv zeta. split.
  - exists [IAppend 7 [0; 3; 0; 2; 97; 98; 4; 1; 1; 0; 0; 0; 1; 3; 0; 2; 99; 100]; IAppend 9 [5; 0; 1]], []. split; [reflexivity|]. apply Permutation_refl.
  - vm_compute. auto.
Qed.
