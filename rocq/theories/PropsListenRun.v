(** A received broadcast runs its listener as the language says (C128). *)
From Coq Require Import String.
From Verif Require Import Base ListLemmas Float Dict DictSpec PDict DictProofs PDictKeys Strman StrmanSpec StrmanProofs Obj ObjSpec ObjProofs Instr Vm VmSpec VmProofs
  PropsVmData Text Lex LexSpec Asm AsmSpec Load PropsCompile PropsScript Strlib PropsSwarmExec Wire WireProofs PropsStrlib TableLib TableLibProofs PropsTableLib CFunSpec CFunProofs Parser Source CompileSpec GcSpec HostSpec NeighborsVm NeighborsVmSpec NeighborsVmProofs PropsNeighborsAdd Register LibrarySpec PropsHost LibraryProofs StdSpec StdProofs Front FrontProofs Meaning PropsLibrary
  OutMsg OutMsgSpec InMsg Messages Swarm SwarmSpec SwarmProofs SwarmVm SwarmVmSpec SwarmVmProofs PropsSwarmVm Listen ListenSpec ListenProofs PropsListen ListenVmSpec ListenVmProofs PropsListenVm PropsCallback.
Local Open Scope Z_scope.
Local Open Scope list_scope.

(** What handling a message does when the meaning of the call of its listener is [o]: the value of the listener is dropped. *)
Definition handled_as (code : list Z) sm_ok sid ws (s : list obj) (go : nat -> res lvm) (o : out (obj * sst lext)) : Prop :=
  match o with
  | Done (_, st) => gives_from go (fun v' => v_state v' = S_READY /\ waiting code sm_ok sid ws v' st s)
  | Fail e => gives_from go (fun v' => v_state v' = S_ERROR)
  | Unspec | More => True
  end.
(** The script has ended, or a function the host called; the bytes [msg] of robot [rid] are read as a broadcast of [wv] under the topic [t], known as [j],
    whose listener is a function of the script.  Then the VM ends as the language says of that function, applied to the topic, the
    received value and the sender. *)
Theorem C128_broadcast_runs_listener :
  forall strtof open name path text ps ts l,
  open name = Some (path, text) -> text ++ [NL] = layout ps -> reads open [path] path [] ps ts ->
  (forall t, In t ts -> t_line t < 2 ^ 63 /\ t_col t < 2 ^ 63 /\ plain_path (t_file t)) ->
  spells_script ts l -> ok_script strtof l = true ->
  NoDup (map fn_id (functions l)) -> zlen (nodup (list_eq_dec Z.eq_dec) (words l)) <= 65534 ->
  exists k0 asm, (forall k, (k0 <= k)%nat -> bzzparse open k [] name = Ok (Some asm)) /\
  (zlen asm < 2 ^ 31 ->
   exists code dbg sid ref,
     buzz_asm strtof asm = Ok (0, code, dbg) /\
     (forall f h, In f (functions l) -> In h (functions l) -> ref (fn_id f) = ref (fn_id h) -> f = h) /\
     exists m, forall (x : lext) flist powf fuel, (m <= fuel)%nat ->
     exists v, load_code flist powf code fuel (vm_new x) = Ok (v, true) /\
       forall cfun, c_functions flist (keeping (v_str v)) cfun -> Forall c_function_ok flist ->
       forall w st s has_vstig other rid msg sm j t wv y h r cap,
         waiting code (keeping (v_str v)) sid (words l) w st s -> v_state w = S_READY ->
         recv (fun i => match lis_get (lx_listen (v_ext w)) i with Some _ => true | None => false end) has_vstig msg (v_str w) = Ok (PMsg (WBroadcast (WStr j t) wv), sm) ->
         keeping (v_str v) sm -> lis_get (lx_listen (v_ext w)) j = Some (OClos true r cap) -> import wv (v_heap w) = (y, h) ->
         let st1 := mkSt (s_glob st) h sm (s_ext st) in
         (forall n, handled_as code (keeping (v_str v)) sid (words l) s (fun fuel => handle flist powf (byte code) (zlen code) fuel has_vstig other w rid msg)
                      (call (at_most strtof powf sid ref (functions l) cfun n) (OClos true r cap) [OStr j t; y; OInt rid] st1)) /\
         ((forall n, call (at_most strtof powf sid ref (functions l) cfun n) (OClos true r cap) [OStr j t; y; OInt rid] st1 = More) ->
          forall fuel, handle flist powf (byte code) (zlen code) fuel has_vstig other w rid msg = Hang)).
Proof.
  intros strtof open name path text ps ts l HO HT HR HP HS HOK HID HW.
  destruct (C128_listener_calls strtof open name path text ps ts l HO HT HR HP HS HOK HID HW) as (k0 & asm & HC & H). exists k0, asm. split; [exact HC|]. intro HA.
  destruct (H HA) as (code & dbg & sid & ref & H1 & H2 & m & H3). exists code, dbg, sid, ref. split; auto. split; auto. exists m. intros x flist powf fuel Hf.
  destruct (H3 lext x flist powf fuel Hf) as (v & V1 & V2 & V3). exists v. split; auto. intros cfun Hc HCok w st s has_vstig other rid msg sm j t wv y h r cap HWt WR ER HK HL EI. cbv zeta.
  destruct (V3 cfun Hc HCok) as [_ HA3]. set (w1 := set_heap (set_str w sm) h).
  assert (HW1 : waiting code (keeping (v_str v)) sid (words l) w1 (mkSt (s_glob st) h sm (s_ext st)) s).
  { destruct HWt as (W1 & W2 & W3 & W4 & W5 & A1 & A2 & A3 & A4 & A5 & A6 & A7 & A8). do 5 (split; [assumption|]). split; [exact A1|]. split; [exact A2|]. split; [reflexivity|]. split; [reflexivity|]. split; [exact A5|]. split; [exact A6|]. split; [exact HK|exact A8]. }
  destruct (HA3 w1 _ s r cap (OStr j t) y (OInt rid) HW1 WR) as [P1 P2].
  assert (EH : forall fu, handle flist powf (byte code) (zlen code) fu has_vstig other w rid msg =
    (v2 <- closure_call flist powf (byte code) (zlen code) fu (push (push (push (push w1 (OClos true r cap)) (OStr j t)) y) (OInt rid)) 3 ;; Ok (vm_pop v2))).
  { intro fu. unfold handle. rewrite ER. cbn [bind]. cbv zeta. change (v_ext (set_str w sm)) with (v_ext w). rewrite HL. change (v_heap (set_str w sm)) with (v_heap w). rewrite EI. reflexivity. }
  split.
  - intro n. specialize (P1 n). destruct (call _ _ _ _) as [[o st']|e| |]; cbn [handled_as answers] in *; auto.
    + destruct P1 as (k & v' & K1 & K2 & K3). exists k, (vm_pop v'). split; [intros fu Hfu; rewrite EH, K1 by exact Hfu; reflexivity|].
      destruct K3 as (W1 & W2 & W3 & W4 & W5 & W6).
      assert (EP : vm_pop v' = set_stack v' s) by (unfold vm_pop, dpop, stack; rewrite W4; reflexivity). rewrite EP. split; [exact K2|].
      split; [exact W1|]. split; [exact W2|]. split; [exact W3|]. split; [cbn; rewrite W4; reflexivity|]. split; [exact W5|]. exact W6.
    + destruct P1 as (k & v' & K1 & K2 & K3). exists k, (vm_pop v'). split; [intros fu Hfu; rewrite EH, K1 by exact Hfu; reflexivity|].
      unfold vm_pop. destruct (stack v'); [reflexivity|exact K2].
  - intros HM fu. rewrite EH, (P2 HM). reflexivity.
Qed.
Print Assumptions C128_broadcast_runs_listener.

(** ** A script with a listener, and a broadcast of 5 by robot 7 *)
Definition lr_files := one_file (bs "neighbors.listen(""u"", function(a, b, c) { y = b + c })").
Definition lr_script : stats := got_script (script_of no_strtof_ lr_files 900 (bs "main")).
Definition lr_asm : list Z := got_asm (bzzparse lr_files 1500 [] (bs "main")).
Definition lr_code : list Z := got_code (buzz_asm no_strtof_ lr_asm).
Definition lr_vm : lvm := match load_all li_fid li_flist no_powf lr_code 12 60 (vm_new li_start) with Ok (v, _) => v | _ => vm_new li_start end.
Definition lr_end : lvm := match execute_script li_flist no_powf (byte lr_code) (zlen lr_code) 2000 lr_vm with Ok w => set_state w S_READY E_NONE | _ => vm_new li_start end.
Definition lr_msg : list Z := match enc_msg (WBroadcast (WStr 3 (bs "u")) (WInt 5)) with Ok b => b | _ => [] end.
Definition lr_listens (i : Z) : bool := match lis_get (lx_listen (v_ext lr_end)) i with Some _ => true | None => false end.
Example C128_case :
  Forall c_function_ok [nb_listen; nb_ignore; nb_broadcast 9] /\
  holds_script no_strtof_ lr_files (bs "main") lr_script /\ zlen lr_asm < 2 ^ 31 /\ lr_code <> [] /\ v_state lr_end = S_READY /\ v_stacks lr_end = [[]] /\
  ok_with (fun r => match r with
    | (PMsg (WBroadcast (WStr j t) (WInt 5)), sm) => t = bs "u" /\ match lis_get (lx_listen (v_ext lr_end)) j with Some (OClos true _ _) => True | _ => False end
    | _ => False end) (recv lr_listens (fun _ => false) lr_msg (v_str lr_end)) /\
  ok_with (fun w => v_state w = S_READY /\ v_stacks w = [[]] /\ global w (name_id lr_vm (bs "y")) = OInt 12)
    (handle li_flist no_powf (byte lr_code) (zlen lr_code) 2000 (fun _ => false) (fun v _ _ => Ok v) lr_end 7 lr_msg).
Proof.
  split; [repeat constructor; [exact listen_c_function|exact ignore_c_function|exact (broadcast_c_function 9)]|]. split; [apply (script_of_ok _ _ 900); vm_compute; reflexivity|]. split; [vm_compute; reflexivity|]. split; [vm_compute; discriminate|]. split; [vm_compute; reflexivity|]. split; [vm_compute; reflexivity|]. split; vm_compute; repeat split.
Qed.
