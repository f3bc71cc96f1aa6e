(** neighbors.broadcast in scripts, beside the functions on stigmergies and swarms and the library: any script (C124), each call
    and whole scripts in the course of any history (C125). *)
From Coq Require Import String.
From Verif Require Import Base ListLemmas Float Dict DictSpec PDict DictProofs PDictKeys Strman StrmanSpec StrmanProofs Obj ObjSpec ObjProofs Instr Vm VmSpec VmProofs
  PropsVmData Text Lex LexSpec Asm AsmSpec Load PropsCompile PropsScript Strlib PropsSwarmExec WireProofs PropsStrlib TableLib TableLibProofs PropsTableLib CFunSpec CFunProofs Parser Source CompileSpec GcSpec HostSpec NeighborsVm NeighborsVmSpec NeighborsVmProofs PropsNeighborsAdd Register LibrarySpec PropsHost LibraryProofs StdSpec StdProofs Front FrontProofs Meaning PropsLibrary
  OutMsg OutMsgSpec Vstig VstigSpec VstigProofs Swarm SwarmSpec SwarmProofs SwarmVm SwarmVmSpec SwarmVmProofs PropsSwarmVm VstigVm VstigVmSpec VstigVmProofs PropsVstigVm Robot RobotSpec RobotProofs PropsRobot BroadcastVm BroadcastVmSpec BroadcastVmProofs.
Local Open Scope Z_scope.
Local Open Scope list_scope.


(** ** C124 *)
(** Scripts that use the standard library with the functions on stigmergies and on swarms and neighbors.broadcast do what the
    language says, with [robot_cfun] for the meaning of the functions; [clone] is how the virtual machine copies objects. *)
Theorem C124_robot_functions :
  forall strtof open name path text ps ts l,
  open name = Some (path, text) -> text ++ [NL] = layout ps -> reads open [path] path [] ps ts ->
  (forall t, In t ts -> t_line t < 2 ^ 63 /\ t_col t < 2 ^ 63 /\ plain_path (t_file t)) ->
  spells_script ts l -> ok_script strtof l = true ->
  NoDup (map fn_id (functions l)) -> zlen (nodup (list_eq_dec Z.eq_dec) (words l)) <= 65534 ->
  exists k0 asm, (forall k, (k0 <= k)%nat -> bzzparse open k [] name = Ok (Some asm)) /\
  (zlen asm < 2 ^ 31 ->
   exists code dbg sid ref,
     buzz_asm strtof asm = Ok (0, code, dbg) /\
     (forall f h, In f (functions l) -> In h (functions l) -> ref (fn_id f) = ref (fn_id h) -> f = h) /\
     exists m, forall (x : held) clone c fid robot flist powf fuel,
     clones clone -> robot_registered fid clone c flist -> (m <= fuel)%nat ->
     exists v, load_code flist powf code fuel (vm_new x) = Ok (v, true) /\
       (sm_live (v_str v) + zlen library_names < 65534 ->
        exists v1 st, load_all fid flist powf code robot fuel (vm_new x) = Ok (v1, S_READY) /\
          library fid robot (start ref l (v_str v) x) st /\
          (forall n, executes code (keeping (v_str v)) sid (words l) (fun fuel => execute_script flist powf (byte code) (zlen code) fuel v1)
                       (run strtof powf sid ref (functions l) (robot_cfun fid c) n l st)) /\
          ((forall n, run strtof powf sid ref (functions l) (robot_cfun fid c) n l st = More) ->
           forall fuel, execute_script flist powf (byte code) (zlen code) fuel v1 = Hang))).
Proof.
  intros strtof open name path text ps ts l HO HT HR HP HS HOK HID HW.
  destruct (C103_standard_library strtof open name path text ps ts l HO HT HR HP HS HOK HID HW) as (k0 & asm & HC & H). exists k0, asm. split; [exact HC|]. intro HA.
  destruct (H HA) as (code & dbg & sid & ref & H1 & H2 & _ & m & H3). exists code, dbg, sid, ref. split; auto. split; auto. exists m. intros x clone c fid robot flist powf fuel HCl HG Hf.
  destruct (H3 held x fid robot flist powf fuel Hf) as (v & V1 & V2). exists v. split; auto. intro HLv. destruct (V2 HLv) as (v1 & st & W1 & W2 & W3 & W4). exists v1, st. split; auto. split; auto.
  refine (W4 _ _). eapply robot_ok; eassumption.
Qed.
Print Assumptions C124_robot_functions.

(** ** C125 *)
(** After any history a script broadcasts a value that is not a table, a closure or user data: the call gives nothing, changes no
    variable, table or string, and the robot is as after the history followed by the broadcast. *)
Theorem C125_broadcast_call :
  forall c fid robot ops rs self i t o (st : sst held),
  hrun (h_new robot) ops = Ok (s_ext st, rs) -> scalar o ->
  exists st', robot_cfun fid c (fid "buzzneighbors_broadcast"%string) [self; OStr i t; o] st = Done (ONil, st') /\
    s_glob st' = s_glob st /\ s_heap st' = s_heap st /\ s_str st' = s_str st /\
    hrun (h_new robot) (ops ++ [HB (OStr i t) o]) = Ok (s_ext st', rs ++ [RB]).
Proof.
  intros c fid robot ops rs self i t o st HR Ho. exists (set_exts st (h_put_out (s_ext st) (append_broadcast (h_out (s_ext st)) (OStr i t) o))).
  split; [|repeat (split; [reflexivity|]); rewrite (hrun_app ops _ _ _ _ HR); reflexivity].
  unfold robot_cfun, robot_meanings. cbn [find fst]. rewrite Z.eqb_refl. cbn [snd]. destruct o; try contradiction; reflexivity.
Qed.
Print Assumptions C125_broadcast_call.
(** The other functions mean what they mean in C119 to C123. *)
Theorem C125_other_calls :
  forall c fid clone name f, NoDup (map (fun e => fid (fst e)) (robot_list fid clone c)) ->
  In (name, f) (all_list fid h_vst h_put_vst h_sw h_put_sw c) ->
  robot_cfun fid c (fid name) = all_cfun fid h_vst h_put_vst h_sw h_put_sw c (fid name).
Proof.
  intros c fid clone name f HN Hf. unfold robot_cfun, all_cfun, robot_meanings. cbn [find fst]. destruct (Z.eqb_spec (fid "buzzneighbors_broadcast"%string) (fid name)) as [E|E]; [|reflexivity].
  exfalso. cbn [robot_list map fst] in HN. apply NoDup_cons_iff in HN as [HN _]. apply HN. rewrite E. apply in_map_iff. exists (name, f). auto.
Qed.
Print Assumptions C125_other_calls.

Lemma calls_history x y : by_calls h_vst h_put_vst h_sw h_put_sw x y -> exists ops rs, hrun x ops = Ok (y, rs) /\ Forall hop_of_script ops.
Proof.
  induction 1 as [x|x y op s r H IH Ho E|x y op s r H IH Ho E].
  - exists [], []. auto.
  - destruct IH as (ops & rs & A & B). exists (ops ++ [HV op]), (rs ++ [RV r]). rewrite (hrun_app _ _ _ _ _ A). cbn [hrun hstep]. rewrite E. cbn [bind]. split; [reflexivity|]. apply Forall_app. auto.
  - destruct IH as (ops & rs & A & B). exists (ops ++ [HS op]), (rs ++ [RS r []]). rewrite (hrun_app _ _ _ _ _ A). cbn [hrun hstep]. rewrite E. cbn [bind]. split; [reflexivity|]. apply Forall_app. auto.
Qed.
Definition from (x0 x : held) : Prop := exists ops rs, hrun x0 ops = Ok (x, rs) /\ Forall hop_of_script ops.
Lemma from_trans x y z : from x y -> from y z -> from x z.
Proof. intros (o1 & r1 & A1 & B1) (o2 & r2 & A2 & B2). exists (o1 ++ o2), (r1 ++ r2). rewrite (hrun_app _ _ _ _ _ A1), A2. split; [reflexivity|]. apply Forall_app. auto. Qed.
Lemma kr_cfun fid c x0 i args (st : sst held) : kp (holds_of (from x0)) st -> kp_out (holds_of (from x0)) (robot_cfun fid c i args st).
Proof.
  intro K. unfold robot_cfun, robot_meanings. cbn [find]. destruct (_ =? i).
  - cbn [snd]. unfold sem_broadcast. destruct args as [|s [|t [|o [|? ?]]]]; try exact Logic.I. destruct t as [| | |k tx| | |]; try exact Logic.I.
    assert (HD : scalar o -> from x0 (h_put_out (s_ext st) (append_broadcast (h_out (s_ext st)) (OStr k tx) o))).
    { intro Ho. eapply from_trans; [exact K|]. exists [HB (OStr k tx) o], [RB]. split; [reflexivity|]. constructor; [exact Ho|constructor]. }
    destruct o; try exact Logic.I; apply HD; exact Logic.I.
  - pose proof (kc_cfun fid h_vst h_put_vst h_sw h_put_sw c (s_ext st) i args st (By_none _ _ _ _ (s_ext st))) as H. unfold all_cfun in H.
    destruct (find _ _) as [e|]; [|exact Logic.I]. destruct (snd e args st) as [[o st']| | |]; try exact Logic.I. eapply from_trans; [exact K|]. exact (calls_history _ _ H).
Qed.
(** A whole script that ends, after any history: the robot is as after the history followed by some sequence of operations on
    stigmergies (create, put, get), operations on swarms and broadcasts of scalars under strings. *)
Theorem C125_scripts :
  forall c fid strtof powf sid ref fs n l robot ops rs (st st' : sst held),
  hrun (h_new robot) ops = Ok (s_ext st, rs) ->
  run strtof powf sid ref fs (robot_cfun fid c) n l st = Done st' ->
  exists ops' rs', hrun (h_new robot) (ops ++ ops') = Ok (s_ext st', rs ++ rs') /\ Forall hop_of_script ops'.
Proof.
  intros c fid strtof powf sid ref fs n l robot ops rs st st' HR HE.
  pose proof (kp_run strtof powf sid ref fs (robot_cfun fid c) (holds_of (from (s_ext st))) (kr_cfun fid c (s_ext st)) n l st) as H. rewrite HE in H.
  destruct H as (ops' & rs' & A & B). { exists [], []. auto. }
  exists ops', rs'. rewrite (hrun_app ops _ _ _ ops' HR), A. auto.
Qed.
Print Assumptions C125_scripts.

(** ** A script that does all three *)
Definition id_clone (h : list table) (o : obj) : res (list table * obj) := match o with ONil | OInt _ | OFloat _ | OStr _ _ => Ok (h, o) | _ => UB end.
Definition rb_names : list string := map fst (robot_list (fun _ => 0) id_clone demo_c).
Definition rb_fid (n : string) : Z := position n rb_names.
Definition rb_flist : list (vm held -> res (vm held)) := map snd (robot_list rb_fid id_clone demo_c).
Definition rb_files := one_file (bs "v = stigmergy.create(1)
v.put(5, 1)
s = swarm.create(3)
s.join()
neighbors.broadcast(""t"", v.get(5))
neighbors.broadcast(""u"", s.in())").
Definition rb_script : stats := got_script (script_of no_strtof_ rb_files 900 (bs "main")).
Definition rb_asm : list Z := got_asm (bzzparse rb_files 1500 [] (bs "main")).
Definition rb_code : list Z := got_code (buzz_asm no_strtof_ rb_asm).
Definition rb_loaded : res (vm held * vstat) := load_all rb_fid rb_flist no_powf rb_code 12 60 (vm_new (h_new 12)).
Definition rb_vm : vm held := match rb_loaded with Ok (v, _) => v | _ => vm_new (h_new 12) end.
Definition text_of (o : obj) : str := match o with OStr _ t => t | _ => [] end.
Definition rb_end (x : held) : Prop :=
  map (fun m => (text_of (fst m), snd m)) (o_bc (h_out x)) = [(bs "t", OInt 1); (bs "u", OInt 1)] /\ sw_get (h_sw x) 3 = Some 1.
Lemma rb_registered : robot_registered rb_fid id_clone demo_c rb_flist.
Proof.
  intros n f H. assert (ND : NoDup rb_names). { apply distinct_names_ok. vm_compute. reflexivity. }
  assert (HE : map fst (robot_list rb_fid id_clone demo_c) = rb_names) by (vm_compute; reflexivity).
  assert (HZ : zlen (robot_list rb_fid id_clone demo_c) = 48) by reflexivity.
  unfold rb_flist. set (l := robot_list rb_fid id_clone demo_c) in *. clearbody l. unfold rb_fid at 1 2. rewrite <- HE in *.
  destruct (registered_at l n f ND H) as [P1 P2]. unfold rb_fid. rewrite <- HE. split; [lia|exact P2].
Qed.
Example C124_C125_case :
  holds_script no_strtof_ rb_files (bs "main") rb_script /\ zlen rb_asm < 2 ^ 31 /\ rb_code <> [] /\ clones id_clone /\ robot_registered rb_fid id_clone demo_c rb_flist /\ NoDup (map (fun e => rb_fid (fst e)) (robot_list rb_fid id_clone demo_c)) /\
  sm_live (v_str rb_vm) < 65534 /\ ok_with (fun r => snd r = S_READY) rb_loaded /\ hrun (h_new 12) [] = Ok (v_ext rb_vm, []) /\
  done_with (fun st => rb_end (s_ext st))
    (run no_strtof_ no_powf (name_id rb_vm) (fun i => i) (functions rb_script) (robot_cfun rb_fid demo_c) 3 rb_script (mkSt (glob_of rb_vm rb_vm) (v_heap rb_vm) (v_str rb_vm) (h_new 12))) /\
  ok_with (fun w => v_state w = S_DONE /\ rb_end (v_ext w)) (execute_script rb_flist no_powf (byte rb_code) (zlen rb_code) 2000 rb_vm).
Proof.
  split; [apply (script_of_ok _ _ 900); vm_compute; reflexivity|]. split; [vm_compute; reflexivity|]. split; [vm_compute; discriminate|].
  split; [intros h [| | | | | |] H; try destruct H; reflexivity|]. split; [exact rb_registered|].
  split. { assert (H : nodup Z.eq_dec (map (fun e => rb_fid (fst e)) (robot_list rb_fid id_clone demo_c)) = map (fun e => rb_fid (fst e)) (robot_list rb_fid id_clone demo_c)) by (vm_compute; reflexivity). rewrite <- H. apply NoDup_nodup. }
  split; [vm_compute; reflexivity|]. split; [vm_compute; reflexivity|]. split; [vm_compute; reflexivity|]. split; vm_compute; repeat split.
Qed.
