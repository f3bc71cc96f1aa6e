(** The functions on virtual stigmergies in scripts: any script (C119), each call (C120), a whole script (C121). *)
From Coq Require Import String.
From Verif Require Import Base ListLemmas Float Dict DictSpec PDict DictProofs PDictKeys Strman StrmanSpec StrmanProofs Obj ObjSpec ObjProofs Instr Vm VmSpec VmProofs
  PropsVmData Text Lex LexSpec Asm AsmSpec Load PropsCompile PropsScript Strlib PropsSwarmExec WireProofs PropsStrlib TableLib TableLibProofs PropsTableLib CFunSpec CFunProofs Parser Source CompileSpec GcSpec HostSpec NeighborsVm NeighborsVmSpec NeighborsVmProofs PropsNeighborsAdd Register LibrarySpec PropsHost LibraryProofs StdSpec StdProofs Front FrontProofs Meaning PropsLibrary
  OutMsg OutMsgSpec Vstig VstigSpec VstigProofs Swarm SwarmSpec SwarmProofs SwarmVm SwarmVmSpec SwarmVmProofs PropsSwarmVm Robot VstigVm VstigVmSpec VstigVmProofs.
Local Open Scope Z_scope.
Local Open Scope list_scope.

(** ** C119 *)
(** Scripts that use the standard library with the functions on stigmergies and on swarms do what the language says, with
    [all_cfun] for the meaning of the functions.  [vst], [put_vst], [sw] and [put_sw]: where the stigmergies, the swarms and the
    outgoing messages of the robot are, in what the virtual machine holds beside the model of scripts. *)
Theorem C119_stigmergy_functions :
  forall strtof open name path text ps ts l,
  open name = Some (path, text) -> text ++ [NL] = layout ps -> reads open [path] path [] ps ts ->
  (forall t, In t ts -> t_line t < 2 ^ 63 /\ t_col t < 2 ^ 63 /\ plain_path (t_file t)) ->
  spells_script ts l -> ok_script strtof l = true ->
  NoDup (map fn_id (functions l)) -> zlen (nodup (list_eq_dec Z.eq_dec) (words l)) <= 65534 ->
  exists k0 asm, (forall k, (k0 <= k)%nat -> bzzparse open k [] name = Ok (Some asm)) /\
  (zlen asm < 2 ^ 31 ->
   exists code dbg sid ref,
     buzz_asm strtof asm = Ok (0, code, dbg) /\
     (forall f h, In f (functions l) -> In h (functions l) -> ref (fn_id f) = ref (fn_id h) -> f = h) /\
     exists m, forall X (x : X) (vst : X -> vstate) put_vst (sw : X -> swst) put_sw c fid robot flist powf fuel,
     all_registered fid vst put_vst sw put_sw c flist -> (m <= fuel)%nat ->
     exists v, load_code flist powf code fuel (vm_new x) = Ok (v, true) /\
       (sm_live (v_str v) + zlen library_names < 65534 ->
        exists v1 st, load_all fid flist powf code robot fuel (vm_new x) = Ok (v1, S_READY) /\
          library fid robot (start ref l (v_str v) x) st /\
          (forall n, executes code (keeping (v_str v)) sid (words l) (fun fuel => execute_script flist powf (byte code) (zlen code) fuel v1)
                       (run strtof powf sid ref (functions l) (all_cfun fid vst put_vst sw put_sw c) n l st)) /\
          ((forall n, run strtof powf sid ref (functions l) (all_cfun fid vst put_vst sw put_sw c) n l st = More) ->
           forall fuel, execute_script flist powf (byte code) (zlen code) fuel v1 = Hang))).
Proof.
  intros strtof open name path text ps ts l HO HT HR HP HS HOK HID HW.
  destruct (C103_standard_library strtof open name path text ps ts l HO HT HR HP HS HOK HID HW) as (k0 & asm & HC & H). exists k0, asm. split; [exact HC|]. intro HA.
  destruct (H HA) as (code & dbg & sid & ref & H1 & H2 & _ & m & H3). exists code, dbg, sid, ref. split; auto. split; auto. exists m. intros X x vst put_vst sw put_sw c fid robot flist powf fuel HG Hf.
  destruct (H3 X x fid robot flist powf fuel Hf) as (v & V1 & V2). exists v. split; auto. intro HLv. destruct (V2 HLv) as (v1 & st & W1 & W2 & W3 & W4). exists v1, st. split; auto. split; auto.
  refine (W4 _ _). apply all_ok. exact HG.
Qed.
Print Assumptions C119_stigmergy_functions.

(** ** What the functions do to the state *)
Section Calls.
Context {X : Type}.
Variable fid : string -> Z.
Variable vst : X -> vstate.
Variable put_vst : X -> vstate -> X.
Notation sst := (sst X).
Implicit Types st : sst.
Definition vnames7 : list string := ("id" :: vstig_methods)%string.
Lemma inv7 : In "id"%string vnames7. Proof. left. reflexivity. Qed.
Lemma new_vstig_ok st0 sm h id : room_for vnames7 sm ->
  exists sm' t L, new_vstig fid (mkSt (s_glob st0) h sm (s_ext st0)) id = Done (OTab (zlen h), mkSt (s_glob st0) (h ++ [t]) sm' (s_ext st0)) /\
    keeps_strings sm sm' /\ room_for vnames7 sm' /\ flds sm' t L /\
    Forall2 (fun e f => f_name f = bs (fst e) /\ f_val f = bind_self (OTab (zlen h)) (snd e)) (vstig_members fid id) L.
Proof.
  intro HR. assert (Ha : 0 <= zlen h) by (unfold zlen; lia).
  destruct (members_ok fid vnames7 (zlen h) st0 Ha (vstig_members fid id) sm (h ++ [tab_new]) tab_new [] HR) as (sm' & t & L & E & K & R & F & M).
  - intros n Hn. exact Hn.
  - match goal with |- NoDup ?L => assert (HN : nodup (list_eq_dec Z.eq_dec) L = L) by (vm_compute; reflexivity) end. rewrite <- HN. apply NoDup_nodup.
  - intros n Hn. split; [|intros []]. cbn in Hn. repeat destruct Hn as [<-|Hn]; [reflexivity..|destruct Hn].
  - intros e He. cbn in He. repeat destruct He as [<-|He]; [discriminate..|destruct He].
  - unfold zlen. rewrite Nat2Z.id, nth_error_app2, Nat.sub_diag by lia. reflexivity.
  - apply flds_new.
  - exists sm', t, L. unfold new_vstig. cbn [s_heap set_tabs]. unfold set_tabs. cbn [s_glob s_str s_ext s_heap]. rewrite E. cbn [obind]. rewrite new_upd. auto.
Qed.
Lemma vstig_fields sm t L (h : list table) id : flds sm t L ->
  Forall2 (fun e f => f_name f = bs (fst e) /\ f_val f = bind_self (OTab (zlen h)) (snd e)) (vstig_members fid id) L ->
  zlen (pentries t) = 7 /\ field sm t "id" (OInt id) /\
  forall n, In n ["foreach"; "size"; "put"; "get"; "onconflict"; "onconflictlost"]%string -> field sm t n (OClos false (sign32 (fid ("buzzvstig_" ++ n)%string)) [OTab (zlen h)]).
Proof.
  intros HF HM.
  assert (HG : forall n o, In (n, o) (vstig_members fid id) -> field sm t n (bind_self (OTab (zlen h)) o)).
  { intros n o Hn. assert (HX : exists f, In f L /\ f_name f = bs n /\ f_val f = bind_self (OTab (zlen h)) o).
    { clear HF. revert Hn. induction HM as [|e f l l' [H1 H2] HM IH]; [intros []|]. intros [->|Hn]; [exists f; split; [left; reflexivity|auto]|].
      destruct (IH Hn) as (g & G1 & G2). exists g. split; [right; exact G1|exact G2]. }
    destruct HX as (f & F1 & F2 & F3). pose proof (fl_ok _ _ _ HF) as HO. rewrite Forall_forall in HO. destruct (HO f F1) as (A & B & _).
    exists (f_id f). split; [exact A|]. rewrite <- F2, <- F3. split; [exact B|]. apply (flds_get sm t L f HF F1). }
  split; [|split].
  - rewrite (flds_size sm L t HF). unfold zlen. rewrite <- (@Forall2_length _ _ _ _ _ HM). reflexivity.
  - refine (HG _ (OInt id) _). left. reflexivity.
  - intros n Hn. refine (HG n (OClos false _ [ONil]) _). unfold vstig_members. right. apply in_map_iff. exists n. split; [reflexivity|exact Hn].
Qed.
Lemma size_pos s id : 0 <= vs_size s id.
Proof. unfold vs_size, psize, zlen. destruct (vfind s id); lia. Qed.

Hypothesis vst_put : forall x s, vst (put_vst x s) = s.
Variable sw : X -> swst.
Variable put_sw : X -> swst -> X.
Variable c : clib.
Lemma vcall_does st name args op s r : NoDup (map (fun e => fid (fst e)) (all_meanings fid vst put_vst sw put_sw c)) -> room_for vnames7 (s_str st) ->
  vstig_call st name args op -> vstep (vst (s_ext st)) op = Ok (s, r) ->
  exists o st', all_cfun fid vst put_vst sw put_sw c (fid name) args st = Done (o, st') /\ vst (s_ext st') = s /\ vreturned fid op r st o st'.
Proof.
  intros HN HR HC HS.
  assert (HF : forall m, In (name, m) (vstig_meanings fid vst put_vst) -> all_cfun fid vst put_vst sw put_sw c (fid name) args st = m args st).
  { intros m Hm. unfold all_cfun. rewrite (found_in fid _ name m HN); [reflexivity|]. apply in_or_app. left. exact Hm. }
  assert (HM : forall sm, room_for vnames7 sm -> exists ops outs, sm_run sm_new ops = Ok (sm, outs) /\ smhist_ok sm_new ops) by (intros sm [Q _]; exact Q).
  inversion HC; subst; cbn [vstep] in HS.
  - inversion HS; subst. rewrite (HF _ (or_introl eq_refl)). unfold sem_vcreate, an_int. cbv zeta.
    destruct (new_vstig_ok (set_exts st (put_vst (s_ext st) (vs_create (vst (s_ext st)) (z mod 65536)))) (s_str st) (s_heap st) (z mod 65536) HR) as (sm' & t & L & E & K & R & F & M).
    unfold set_exts in *. cbn [s_glob s_ext] in E. rewrite E. destruct (vstig_fields sm' t L (s_heap st) (z mod 65536) F M) as (F1 & F2 & F3).
    eexists. eexists. split; [reflexivity|]. split; [apply vst_put|]. split; [reflexivity|]. split; [exact K|]. split; [apply HM; exact R|]. split; [reflexivity|]. split.
    + exists (zlen (s_heap st)), t, (z mod 65536). split; [reflexivity|]. split; [unfold zlen; lia|]. split; [|split; [exact F2|symmetry; apply Z.mod_mod; lia]].
      cbn [s_heap]. unfold zlen. rewrite Nat2Z.id, nth_error_app2, Nat.sub_diag by lia. reflexivity.
    + exists t. auto.
  - rewrite (HF _ (or_intror (or_introl eq_refl))). unfold sem_vput.
    match goal with |- context [swarm_id_of o st ?k] => destruct (id_of_ok fid vnames7 st o id k inv7 HR H) as (sm & E & R & K) end. rewrite E. cbn [set_strs s_ext].
    destruct (vs_put _ _ _ _) as [s1| | |]; cbn [bind] in HS; inversion HS; subst. eexists. eexists. split; [reflexivity|]. split; [apply vst_put|].
    split; [reflexivity|]. split; [exact K|]. split; [apply HM; exact R|]. split; reflexivity.
  - rewrite (HF _ (or_intror (or_intror (or_intror (or_introl eq_refl))))). unfold sem_vget.
    match goal with |- context [swarm_id_of o st ?k] => destruct (id_of_ok fid vnames7 st o id k inv7 HR H) as (sm & E & R & K) end. rewrite E. cbn [set_strs s_ext].
    destruct (vs_get _ _ _) as [[s1 x]| | |]; cbn [bind] in HS; inversion HS; subst. eexists. eexists. split; [reflexivity|]. split; [apply vst_put|].
    split; [reflexivity|]. split; [exact K|]. split; [apply HM; exact R|]. split; reflexivity.
  - rewrite (HF _ (or_intror (or_intror (or_introl eq_refl)))). unfold sem_vsize.
    match goal with |- context [swarm_id_of o st ?k] => destruct (id_of_ok fid vnames7 st o id k inv7 HR H) as (sm & E & R & K) end. rewrite E. cbn [set_strs s_ext].
    inversion HS; subst. eexists. eexists. split; [reflexivity|]. split; [reflexivity|].
    split; [reflexivity|]. split; [exact K|]. split; [apply HM; exact R|]. split; [reflexivity|]. intro HZ. rewrite sign32_small; [reflexivity|]. pose proof (size_pos (vst (s_ext st)) id). lia.
Qed.
End Calls.

(** ** C120 *)
(** The robot has created stigmergies, put and read values, received and sent messages, in any order [ops]; a script calls a
    function on stigmergies, which stands for the operation [op].  The call succeeds; it gives a new table that is the
    stigmergy, with its methods, for create, nothing for put, the value for get and the number of entries for size; and what the
    robot holds is what it holds after [ops] and [op], so that C27 to C31 say what the stigmergies contain and what is sent.  The
    value that get gives is the one of the entry. *)
Theorem C120_stigmergy_calls :
  forall X (vst : X -> vstate) put_vst (sw : X -> swst) put_sw c fid fl sidof robot ops outs name args (st : sst X) op,
  (forall x s, vst (put_vst x s) = s) -> NoDup (map (fun e => fid (fst e)) (all_list (X := X) fid vst put_vst sw put_sw c)) ->
  Forall (vop_ok fl sidof) ops -> vrun (vst_new robot) ops = Ok (vst (s_ext st), outs) ->
  strings_ok (s_str st) -> sm_live (s_str st) + 7 < 65534 ->
  vstig_call st name args op -> vop_ok fl sidof op ->
  exists r o st', all_cfun fid vst put_vst sw put_sw c (fid name) args st = Done (o, st') /\ vreturned fid op r st o st' /\
    vrun (vst_new robot) (ops ++ [op]) = Ok (vst (s_ext st'), outs ++ [r]) /\
    forall id k, op = VGet id k -> o = match entry (vst (s_ext st)) id k with Some e => ve_data e | None => ONil end.
Proof.
  intros X vst put_vst sw put_sw c fid fl sidof robot ops outs name args st op HP HN HO HR HS HL HC Hop.
  assert (HW : winv fl sidof (vst (s_ext st))). { apply reachable_winv. exists robot, ops, outs. auto. }
  destruct (vstep_ok fl sidof _ op HW Hop) as (s & r & ES & _).
  assert (HN' : NoDup (map (fun e => fid (fst e)) (all_meanings (X := X) fid vst put_vst sw put_sw c))) by exact HN.
  assert (HRm : room_for vnames7 (s_str st)) by (apply room_live; [exact HS|exact HL]).
  destruct (vcall_does fid vst put_vst HP sw put_sw c st name args op s r HN' HRm HC ES) as (o & st' & D1 & D2 & D3).
  exists r, o, st'. split; [exact D1|]. split; [exact D3|]. split.
  - rewrite D2. clear - HR ES. revert HR. generalize (vst_new robot) outs. induction ops as [|p ops IH]; intros s1 r1 H1; cbn [vrun app] in *.
    + inversion H1; subst. rewrite ES. reflexivity.
    + destruct (vstep s1 p) as [[s2 r2]| | |]; cbn [bind] in *; try discriminate. destruct (vrun s2 ops) as [[s3 r3]| | |] eqn:E3; cbn [bind] in H1; inversion H1; subst.
      rewrite (IH s2 _ E3). reflexivity.
  - intros id k ->. cbn [vop_ok] in Hop. destruct (get_ok fl sidof _ id k HW Hop) as (s1 & G1 & _). cbn [vstep] in ES. rewrite G1 in ES. cbn [bind] in ES. inversion ES; subst.
    destruct D3 as (_ & _ & _ & _ & D). exact D.
Qed.
Print Assumptions C120_stigmergy_calls.

(** ** C121 *)
Section Whole.
Context {X : Type}.
Variable fid : string -> Z.
Variable vst : X -> vstate.
Variable put_vst : X -> vstate -> X.
Variable sw : X -> swst.
Variable put_sw : X -> swst -> X.
Variable c : clib.
Notation sst := (sst X).
Implicit Types st : sst.
Variable x0 : X.
Definition called (x : X) : Prop := by_calls vst put_vst sw put_sw x0 x.
Notation keep := (kp (X := X) (holds_of called)).
Notation keeps := (kp_out (X := X) (holds_of called)).
Lemma kc_gives op r st : of_script op -> sw_step (sw (s_ext st)) op = ('(s, x) <- r ;; Ok (s, x, [])) -> keep st -> keeps (gives fid put_sw r st).
Proof.
  intros Ho E K. destruct r as [[s x]| | |]; cbn [bind] in E; try exact Logic.I. assert (K1 : keep (set_exts st (put_sw (s_ext st) s))) by exact (By_swarm vst put_vst sw put_sw x0 (s_ext st) op s x K Ho E).
  unfold gives. destruct x as [| |z|id]; try exact Logic.I; try exact K1. unfold new_swarm. eapply outs_bind; [apply kp_members; exact K1|]. intros st2 K2. exact K2.
Qed.
Lemma kc_swarm e : In e (swarm_meanings fid sw put_sw) -> forall args st, keep st -> keeps (snd e args st).
Proof.
  intros He args st K.
  assert (M0 : forall op f, (forall id, of_script (op id)) -> (forall s id, sw_step s (op id) = ('(s, x) <- f s id ;; Ok (s, x, []))) -> keeps (sem_method0 fid sw put_sw f args st)).
  { intros op f H1 H2. destruct args as [|s [|? ?]]; try exact Logic.I. apply kp_id; [exact K|]. intros id st1 K1. apply (kc_gives (op id)); [apply H1|apply H2|exact K1]. }
  assert (MS : forall op f, (forall z a b, of_script (op z a b)) -> (forall s z a b, sw_step s (op z a b) = ('(s, x) <- f s z a b ;; Ok (s, x, []))) -> keeps (sem_setop fid sw put_sw f args st)).
  { intros op f H1 H2. destruct args as [|s [|i [|x [|y [|? ?]]]]]; try exact Logic.I. apply kp_int. intro z. apply kp_member; [exact K|]. intros a st1 K1. apply kp_member; [exact K1|]. intros b st2 K2.
    apply (kc_gives (op z a b)); [apply H1|apply H2|exact K2]. }
  cbn [swarm_meanings In] in He. repeat destruct He as [<-|He]; [..|destruct He]; cbn [snd].
  - destruct args as [|s [|x [|? ?]]]; try exact Logic.I. apply kp_int. intro z. apply (kc_gives (SCreate z)); [exact Logic.I|reflexivity|exact K].
  - apply (MS SUnion); [exact (fun _ _ _ => Logic.I)|reflexivity].
  - apply (MS SInter); [exact (fun _ _ _ => Logic.I)|reflexivity].
  - apply (MS SDiff); [exact (fun _ _ _ => Logic.I)|reflexivity].
  - destruct args as [|s [|x [|? ?]]]; try exact Logic.I. apply kp_id; [exact K|]. intros id st1 K1. destruct (sw_get _ _) as [y|]; [|exact Logic.I]. apply kp_int. intro z.
    apply (kc_gives (SOthers id z)); [exact Logic.I|reflexivity|exact K1].
  - apply (M0 SJoin); [exact (fun _ => Logic.I)|reflexivity].
  - apply (M0 SLeave); [exact (fun _ => Logic.I)|reflexivity].
  - apply (M0 SIn); [exact (fun _ => Logic.I)|reflexivity].
  - destruct args as [|s [|x [|? ?]]]; try exact Logic.I. apply kp_id; [exact K|]. intros id st1 K1. apply kp_int. intro z. apply (kc_gives (SSelect id z)); [exact Logic.I|reflexivity|exact K1].
Qed.
Lemma kc_vstig e : In e (vstig_meanings fid vst put_vst) -> forall args st, keep st -> keeps (snd e args st).
Proof.
  intros He args st K. cbn [vstig_meanings In] in He. repeat destruct He as [<-|He]; [..|destruct He]; cbn [snd].
  - destruct args as [|s [|x [|? ?]]]; try exact Logic.I. apply kp_int. intro z. cbv zeta. unfold new_vstig. eapply outs_bind; [apply kp_members|intros st2 K2; exact K2].
    refine (By_vstig vst put_vst sw put_sw x0 (s_ext st) (VCreate (z mod 65536)) _ RNone K Logic.I eq_refl).
  - destruct args as [|s [|k [|x [|? ?]]]]; try exact Logic.I. apply kp_id; [exact K|]. intros id st1 K1. destruct (vs_put _ _ _ _) as [s1| | |] eqn:E; try exact Logic.I.
    refine (By_vstig vst put_vst sw put_sw x0 (s_ext st1) (VPut id k x) s1 RNone K1 Logic.I _). cbn [vstep]. rewrite E. reflexivity.
  - destruct args as [|s [|? ?]]; try exact Logic.I. apply kp_id; [exact K|]. intros id st1 K1. exact K1.
  - destruct args as [|s [|k [|? ?]]]; try exact Logic.I. apply kp_id; [exact K|]. intros id st1 K1. destruct (vs_get _ _ _) as [[s1 o]| | |] eqn:E; try exact Logic.I.
    refine (By_vstig vst put_vst sw put_sw x0 (s_ext st1) (VGet id k) s1 (RVal o) K1 Logic.I _). cbn [vstep]. rewrite E. reflexivity.
Qed.
Lemma kc_cfun i args st : keep st -> keeps (all_cfun fid vst put_vst sw put_sw c i args st).
Proof.
  intro K. unfold all_cfun. destruct (find _ _) as [e|] eqn:E; [|exact Logic.I]. apply find_some in E as [E _]. unfold all_meanings in E. apply in_app_or in E as [E|E]; [apply kc_vstig; assumption|].
  apply in_app_or in E as [E|E]; [apply kc_swarm; assumption|]. eapply kp_std; eassumption.
Qed.
End Whole.

(** Whatever a script does, with the library and the functions on stigmergies and swarms, when it ends the rest of the state is the
    one after some sequence of the operations create, put and get on stigmergies and of the operations on swarms. *)
Theorem C121_scripts_are_calls :
  forall X (vst : X -> vstate) put_vst (sw : X -> swst) put_sw c fid strtof powf sid ref fs n l (st st' : sst X),
  run strtof powf sid ref fs (all_cfun fid vst put_vst sw put_sw c) n l st = Done st' ->
  by_calls vst put_vst sw put_sw (s_ext st) (s_ext st').
Proof.
  intros X vst put_vst sw put_sw c fid strtof powf sid ref fs n l st st' HR.
  pose proof (kp_run strtof powf sid ref fs (all_cfun fid vst put_vst sw put_sw c) (holds_of (called vst put_vst sw put_sw (s_ext st))) (kc_cfun fid vst put_vst sw put_sw c (s_ext st)) n l st) as H.
  rewrite HR in H. apply H. apply By_none.
Qed.
Print Assumptions C121_scripts_are_calls.

(** ** A script on stigmergies and swarms *)
(** The rest of the state is [held] of Robot.v, with one queue for the messages of stigmergies and swarms as in the C code. *)
Definition vg_names : list string := map fst (all_list (fun _ => 0) h_vst h_put_vst h_sw h_put_sw demo_c).
Definition vg_fid (n : string) : Z := position n vg_names.
Definition vg_flist : list (vm held -> res (vm held)) := map snd (all_list vg_fid h_vst h_put_vst h_sw h_put_sw demo_c).
Definition vg_files := one_file (bs "v = stigmergy.create(65543)
v.put(5, 1)
s = swarm.create(3)
s.join()
v.put(5, 2)
v.put(6, s.in())
a = v.get(5)
b = v.get(9)
v.put(6, nil)
c = v.size()
i = v.id").
Definition vg_script : stats := got_script (script_of no_strtof_ vg_files 900 (bs "main")).
Definition vg_asm : list Z := got_asm (bzzparse vg_files 1500 [] (bs "main")).
Definition vg_code : list Z := got_code (buzz_asm no_strtof_ vg_asm).
Definition vg_loaded : res (vm held * vstat) := load_all vg_fid vg_flist no_powf vg_code 12 60 (vm_new (h_new 12)).
Definition vg_vm : vm held := match vg_loaded with Ok (v, _) => v | _ => vm_new (h_new 12) end.
Definition vg_end (g : str -> obj) (x : held) : Prop :=
  g (bs "a") = OInt 2 /\ g (bs "b") = ONil /\ g (bs "c") = OInt 1 /\ g (bs "i") = OInt 7 /\
  entry (h_vst x) 7 (OInt 5) = Some {| ve_data := OInt 2; ve_ts := 2; ve_robot := 12 |} /\ entry (h_vst x) 7 (OInt 6) = None /\ sw_get (h_sw x) 3 = Some 1.
Lemma vg_registered : all_registered vg_fid h_vst h_put_vst h_sw h_put_sw demo_c vg_flist.
Proof.
  intros n f H. assert (ND : NoDup vg_names). { apply distinct_names_ok. vm_compute. reflexivity. }
  assert (HE : map fst (all_list vg_fid h_vst h_put_vst h_sw h_put_sw demo_c) = vg_names) by (vm_compute; reflexivity).
  assert (HZ : zlen (all_list vg_fid h_vst h_put_vst h_sw h_put_sw demo_c) = 47) by reflexivity.
  unfold vg_flist. set (l := all_list vg_fid h_vst h_put_vst h_sw h_put_sw demo_c) in *. clearbody l. unfold vg_fid at 1 2. rewrite <- HE in *.
  destruct (registered_at l n f ND H) as [P1 P2]. unfold vg_fid. rewrite <- HE. split; [lia|exact P2].
Qed.
Example C119_C121_case :
  holds_script no_strtof_ vg_files (bs "main") vg_script /\ zlen vg_asm < 2 ^ 31 /\ vg_code <> [] /\ all_registered vg_fid h_vst h_put_vst h_sw h_put_sw demo_c vg_flist /\
  sm_live (v_str vg_vm) < 65534 /\ ok_with (fun r => snd r = S_READY) vg_loaded /\
  done_with (fun st => vg_end (s_glob st) (s_ext st))
    (run no_strtof_ no_powf (name_id vg_vm) (fun i => i) (functions vg_script) (all_cfun vg_fid h_vst h_put_vst h_sw h_put_sw demo_c) 3 vg_script (mkSt (glob_of vg_vm vg_vm) (v_heap vg_vm) (v_str vg_vm) (h_new 12))) /\
  ok_with (fun w => v_state w = S_DONE /\ vg_end (glob_of vg_vm w) (v_ext w)) (execute_script vg_flist no_powf (byte vg_code) (zlen vg_code) 2000 vg_vm).
Proof.
  split; [apply (script_of_ok _ _ 900); vm_compute; reflexivity|]. split; [vm_compute; reflexivity|]. split; [vm_compute; discriminate|]. split; [exact vg_registered|].
  split; [vm_compute; reflexivity|]. split; [vm_compute; reflexivity|]. split; vm_compute; repeat split.
Qed.

(** ** C120 on a state: the robot has created stigmergy 1 and put 8 under 5; a script reads it. *)
Definition one_put : list vop := [VCreate 1; VPut 1 (OInt 5) (OInt 8)].
Definition has_put : vstate := match vrun (vst_new 12) one_put with Ok (s, _) => s | _ => vst_new 12 end.
Definition st_put : sst held := mkSt (fun _ => ONil) [one_table] (fst one_key) (h_put_vst (h_new 12) has_put).
Example C120_case :
  (forall x s, h_vst (h_put_vst x s) = s) /\ NoDup (map (fun e => vg_fid (fst e)) (all_list vg_fid h_vst h_put_vst h_sw h_put_sw demo_c)) /\
  Forall (vop_ok true (fun _ => 0)) one_put /\ vrun (vst_new 12) one_put = Ok (h_vst (s_ext st_put), [RNone; RNone]) /\
  strings_ok (s_str st_put) /\ sm_live (s_str st_put) + 7 < 65534 /\ vstig_call st_put "buzzvstig_get" [OTab 0; OInt 5] (VGet 1 (OInt 5)) /\ vop_ok true (fun _ => 0) (VGet 1 (OInt 5)) /\
  match all_cfun vg_fid h_vst h_put_vst h_sw h_put_sw demo_c (vg_fid "buzzvstig_get") [OTab 0; OInt 5] st_put with Done (o, _) => o = OInt 8 | _ => False end.
Proof.
  split; [intros x []; reflexivity|].
  split. { assert (H : nodup Z.eq_dec (map (fun e => vg_fid (fst e)) (all_list vg_fid h_vst h_put_vst h_sw h_put_sw demo_c)) = map (fun e => vg_fid (fst e)) (all_list vg_fid h_vst h_put_vst h_sw h_put_sw demo_c)) by (vm_compute; reflexivity). rewrite <- H. apply NoDup_nodup. }
  split; [repeat constructor|]. split; [vm_compute; reflexivity|].
  split. { exists [SmReg (bs "id") true]. eexists. split; [|vm_compute; reflexivity]. split; [vm_compute; reflexivity|]. vm_compute. exact Logic.I. }
  split; [vm_compute; reflexivity|]. split.
  { apply Call_vget. exists 0, one_table, 65537. split; [reflexivity|]. split; [lia|]. split; [reflexivity|]. split; [|reflexivity]. exists (snd one_key). vm_compute. repeat split; discriminate. }
  split; [reflexivity|]. vm_compute. reflexivity.
Qed.
