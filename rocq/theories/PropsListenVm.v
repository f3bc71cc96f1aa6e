(** neighbors.listen, neighbors.ignore and neighbors.broadcast of any value in scripts, beside the library: any script (C126), each call and whole scripts after any
    history of registrations (C127). *)
From Coq Require Import String.
From Verif Require Import Base ListLemmas Float Dict DictSpec PDict DictProofs PDictKeys Strman StrmanSpec StrmanProofs Obj ObjSpec ObjProofs Instr Vm VmSpec VmProofs
  PropsVmData Text Lex LexSpec Asm AsmSpec Load PropsCompile PropsScript Strlib PropsSwarmExec Wire WireProofs PropsStrlib TableLib TableLibProofs PropsTableLib CFunSpec CFunProofs Parser Source CompileSpec GcSpec HostSpec NeighborsVm NeighborsVmSpec NeighborsVmProofs PropsNeighborsAdd Register LibrarySpec PropsHost LibraryProofs StdSpec StdProofs Front FrontProofs Meaning PropsLibrary
  OutMsg OutMsgSpec InMsg Swarm SwarmSpec SwarmProofs SwarmVm SwarmVmSpec SwarmVmProofs PropsSwarmVm Listen ListenSpec ListenProofs ListenVmSpec ListenVmProofs.
Local Open Scope Z_scope.
Local Open Scope list_scope.

(** ** C126 *)
(** Scripts that use the standard library with neighbors.listen, neighbors.ignore and neighbors.broadcast do what the language says, with
    [listen_cfun] for the meaning of the functions. *)
Theorem C126_listen_functions :
  forall strtof open name path text ps ts l,
  open name = Some (path, text) -> text ++ [NL] = layout ps -> reads open [path] path [] ps ts ->
  (forall t, In t ts -> t_line t < 2 ^ 63 /\ t_col t < 2 ^ 63 /\ plain_path (t_file t)) ->
  spells_script ts l -> ok_script strtof l = true ->
  NoDup (map fn_id (functions l)) -> zlen (nodup (list_eq_dec Z.eq_dec) (words l)) <= 65534 ->
  exists k0 asm, (forall k, (k0 <= k)%nat -> bzzparse open k [] name = Ok (Some asm)) /\
  (zlen asm < 2 ^ 31 ->
   exists code dbg sid ref,
     buzz_asm strtof asm = Ok (0, code, dbg) /\
     (forall f h, In f (functions l) -> In h (functions l) -> ref (fn_id f) = ref (fn_id h) -> f = h) /\
     exists m, forall (x : lext) k c fid robot flist powf fuel,
     listen_registered fid k c flist -> (m <= fuel)%nat ->
     exists v, load_code flist powf code fuel (vm_new x) = Ok (v, true) /\
       (sm_live (v_str v) + zlen library_names < 65534 ->
        exists v1 st, load_all fid flist powf code robot fuel (vm_new x) = Ok (v1, S_READY) /\
          library fid robot (start ref l (v_str v) x) st /\
          (forall n, executes code (keeping (v_str v)) sid (words l) (fun fuel => execute_script flist powf (byte code) (zlen code) fuel v1)
                       (run strtof powf sid ref (functions l) (listen_cfun fid k c) n l st)) /\
          ((forall n, run strtof powf sid ref (functions l) (listen_cfun fid k c) n l st = More) ->
           forall fuel, execute_script flist powf (byte code) (zlen code) fuel v1 = Hang))).
Proof.
  intros strtof open name path text ps ts l HO HT HR HP HS HOK HID HW.
  destruct (C103_standard_library strtof open name path text ps ts l HO HT HR HP HS HOK HID HW) as (k0 & asm & HC & H). exists k0, asm. split; [exact HC|]. intro HA.
  destruct (H HA) as (code & dbg & sid & ref & H1 & H2 & _ & m & H3). exists code, dbg, sid, ref. split; auto. split; auto. exists m. intros x k c fid robot flist powf fuel HG Hf.
  destruct (H3 lext x fid robot flist powf fuel Hf) as (v & V1 & V2). exists v. split; auto. intro HLv. destruct (V2 HLv) as (v1 & st & W1 & W2 & W3 & W4). exists v1, st. split; auto. split; auto.
  refine (W4 _ _). eapply listen_ok; eassumption.
Qed.
Print Assumptions C126_listen_functions.

(** ** C127 *)
(** The listeners of a state are those of a history of registrations, latest first: for each topic the one registered last and
    not ignored since. *)
Definition listeners_of (x : lext) (hist : list lop) : Prop :=
  Forall lop_ok hist /\ lx_listen x = fold_right lis_apply (pnew 10) hist.
Lemma listeners_get x hist topic : listeners_of x hist -> 0 <= topic < 65536 -> lis_get (lx_listen x) topic = listener hist topic.
Proof. intros [HO HE] Ht. rewrite HE. apply lis_hist; auto. Qed.
(** After any history, a script calls listen with a string and a function: the call gives nil, changes no variable, table or string
    and none of the waiting messages; the function is the listener of that topic, the others have the listeners they had. *)
Theorem C127_listen_call :
  forall k c fid hist self i t n r act (st : sst lext), listeners_of (s_ext st) hist -> 0 <= i < 65536 ->
  exists st', listen_cfun fid k c (fid "buzzneighbors_listen"%string) [self; OStr i t; OClos n r act] st = Done (ONil, st') /\
    s_glob st' = s_glob st /\ s_heap st' = s_heap st /\ s_str st' = s_str st /\ lx_in (s_ext st') = lx_in (s_ext st) /\ lx_out (s_ext st') = lx_out (s_ext st) /\
    listeners_of (s_ext st') (LListen i (OClos n r act) :: hist) /\
    lis_get (lx_listen (s_ext st')) i = Some (OClos n r act) /\
    forall topic, 0 <= topic < 65536 -> topic <> i -> lis_get (lx_listen (s_ext st')) topic = lis_get (lx_listen (s_ext st)) topic.
Proof.
  intros k c fid hist self i t n r act st HX Hi. pose proof HX as [HO HE]. exists (with_listeners st (LListen i (OClos n r act))).
  split. { unfold listen_cfun, listen_meanings. cbn [find fst]. rewrite Z.eqb_refl. cbn [snd]. unfold sem_listen. destruct (Z.leb_spec 0 i); [|lia]. destruct (Z.ltb_spec i 65536); [|lia]. reflexivity. }
  do 5 (split; [reflexivity|]).
  assert (HN : listeners_of (s_ext (with_listeners st (LListen i (OClos n r act)))) (LListen i (OClos n r act) :: hist)).
  { split; [constructor; [exact Hi|exact HO]|]. cbn. rewrite HE. reflexivity. }
  split; [exact HN|]. split.
  - rewrite (listeners_get _ _ _ HN Hi). cbn [listener]. rewrite Z.eqb_refl. reflexivity.
  - intros topic Ht Hne. rewrite (listeners_get _ _ _ HN Ht), (listeners_get _ _ _ HX Ht). cbn [listener]. destruct (Z.eqb_spec i topic); [congruence|reflexivity].
Qed.
Print Assumptions C127_listen_call.
(** ignore: that topic has no listener any more. *)
Theorem C127_ignore_call :
  forall k c fid hist self i t (st : sst lext), fid "buzzneighbors_listen"%string <> fid "buzzneighbors_ignore"%string -> listeners_of (s_ext st) hist -> 0 <= i < 65536 ->
  exists st', listen_cfun fid k c (fid "buzzneighbors_ignore"%string) [self; OStr i t] st = Done (ONil, st') /\
    s_glob st' = s_glob st /\ s_heap st' = s_heap st /\ s_str st' = s_str st /\ lx_in (s_ext st') = lx_in (s_ext st) /\ lx_out (s_ext st') = lx_out (s_ext st) /\
    listeners_of (s_ext st') (LIgnore i :: hist) /\
    lis_get (lx_listen (s_ext st')) i = None /\
    forall topic, 0 <= topic < 65536 -> topic <> i -> lis_get (lx_listen (s_ext st')) topic = lis_get (lx_listen (s_ext st)) topic.
Proof.
  intros k c fid hist self i t st HF HX Hi. pose proof HX as [HO HE]. exists (with_listeners st (LIgnore i)).
  split. { unfold listen_cfun, listen_meanings. cbn [find fst]. destruct (Z.eqb_spec (fid "buzzneighbors_listen"%string) (fid "buzzneighbors_ignore"%string)); [contradiction|]. rewrite Z.eqb_refl. cbn [snd].
    unfold sem_ignore. destruct (Z.leb_spec 0 i); [|lia]. destruct (Z.ltb_spec i 65536); [|lia]. reflexivity. }
  do 5 (split; [reflexivity|]).
  assert (HN : listeners_of (s_ext (with_listeners st (LIgnore i))) (LIgnore i :: hist)).
  { split; [constructor; [exact Hi|exact HO]|]. cbn. rewrite HE. reflexivity. }
  split; [exact HN|]. split.
  - rewrite (listeners_get _ _ _ HN Hi). cbn [listener]. rewrite Z.eqb_refl. reflexivity.
  - intros topic Ht Hne. rewrite (listeners_get _ _ _ HN Ht), (listeners_get _ _ _ HX Ht). cbn [listener]. destruct (Z.eqb_spec i topic); [congruence|reflexivity].
Qed.
Print Assumptions C127_ignore_call.

(** broadcast of any value, tables too: its contents [w] wait to be sent under the topic, after what waits already; the
    listeners stay. *)
Theorem C127_broadcast_call :
  forall c fid self i t o w (st : sst lext), fid "buzzneighbors_listen"%string <> fid "buzzneighbors_broadcast"%string -> fid "buzzneighbors_ignore"%string <> fid "buzzneighbors_broadcast"%string ->
  repr 0 (s_heap st) o w ->
  exists n, forall k, (n <= k)%nat ->
  exists st', listen_cfun fid k c (fid "buzzneighbors_broadcast"%string) [self; OStr i t; o] st = Done (ONil, st') /\
    s_glob st' = s_glob st /\ s_heap st' = s_heap st /\ s_str st' = s_str st /\ lx_in (s_ext st') = lx_in (s_ext st) /\ lx_listen (s_ext st') = lx_listen (s_ext st) /\
    lx_out (s_ext st') = lx_out (s_ext st) ++ [(WStr i t, w)].
Proof.
  intros c fid self i t o w st HF HG HW. destruct (snapshot_ok _ _ _ _ HW) as (n & Hn). exists (S n). intros [|k] Hk; [lia|]. exists (with_broadcast st (WStr i t, w)).
  split; [|do 5 (split; [reflexivity|]); reflexivity].
  unfold listen_cfun, listen_meanings. cbn [find fst]. destruct (Z.eqb_spec (fid "buzzneighbors_listen"%string) (fid "buzzneighbors_broadcast"%string)); [contradiction|].
  destruct (Z.eqb_spec (fid "buzzneighbors_ignore"%string) (fid "buzzneighbors_broadcast"%string)); [contradiction|]. rewrite Z.eqb_refl. cbn [snd].
  unfold sem_send. change (snapshot (S k) (s_heap st) (OStr i t)) with (Ok (WStr i t)). rewrite (Hn (S k)) by lia. reflexivity.
Qed.
Print Assumptions C127_broadcast_call.

(** The state [x] comes from [x0] by the registrations [ops], latest first, and the broadcasts [bs], latest last. *)
Definition registered_since (x0 x : lext) : Prop :=
  exists ops bs, Forall lop_of_script ops /\ Forall topic_is_string bs /\ x = mkLx (fold_right lis_apply (lx_listen x0) ops) (lx_in x0) (lx_out x0 ++ bs).
Lemma kl_op x0 st op : lop_of_script op -> kp (holds_of (registered_since x0)) st -> kp (holds_of (registered_since x0)) (with_listeners st op).
Proof. intros Ho (ops & bs & HF & HB & E). exists (op :: ops), bs. split; [constructor; assumption|]. split; [exact HB|]. cbn. rewrite E. reflexivity. Qed.
Lemma kl_cfun fid k c x0 i args (st : sst lext) : kp (holds_of (registered_since x0)) st -> kp_out (holds_of (registered_since x0)) (listen_cfun fid k c i args st).
Proof.
  intro K. unfold listen_cfun. destruct (find _ _) as [e|] eqn:E; [|exact Logic.I]. apply find_some in E as [E _]. destruct E as [<-|[<-|[<-|E]]]; [..|eapply kp_std; eassumption]; cbn [snd].
  - unfold sem_listen. destruct args as [|? [|t [|f [|? ?]]]]; try exact Logic.I; destruct t as [| | |i0 tx| | |]; try exact Logic.I.
    destruct f as [| | | | |n r act|]; try exact Logic.I. destruct (Z.leb_spec 0 i0); [|exact Logic.I]. destruct (Z.ltb_spec i0 65536); [|exact Logic.I]. apply (kl_op x0 st (LListen i0 (OClos n r act))); [|exact K]. repeat split; cbn; lia.
  - unfold sem_ignore. destruct args as [|? [|t [|? ?]]]; try exact Logic.I; destruct t as [| | |i0 tx| | |]; try exact Logic.I.
    destruct (Z.leb_spec 0 i0); [|exact Logic.I]. destruct (Z.ltb_spec i0 65536); [|exact Logic.I]. apply (kl_op x0 st (LIgnore i0)); [|exact K]. repeat split; cbn; lia.
  - unfold sem_send. destruct args as [|? [|t [|o [|? ?]]]]; try exact Logic.I; destruct t as [| | |i0 tx| | |]; try exact Logic.I.
    destruct (snapshot k (s_heap st) (OStr i0 tx)) as [t'| | |] eqn:ET; try exact Logic.I. destruct (snapshot k (s_heap st) o) as [w| | |]; try exact Logic.I.
    destruct K as (ops & bs & HF & HB & E0). exists ops, (bs ++ [(t', w)]). split; [exact HF|]. split.
    + apply Forall_app. split; [exact HB|]. constructor; [|constructor]. exists i0, tx. destruct k; [discriminate|]. injection ET as <-. reflexivity.
    + cbn. rewrite E0. cbn. rewrite app_assoc. reflexivity.
Qed.
(** A whole script that ends, after any history of registrations: the listeners are those of the history followed by some
    registrations of functions and removals; received messages still wait, and those to be sent are followed by some under topics
    that are strings. *)
Theorem C127_scripts :
  forall k c fid strtof powf sid ref fs n l hist (st st' : sst lext), listeners_of (s_ext st) hist ->
  run strtof powf sid ref fs (listen_cfun fid k c) n l st = Done st' ->
  lx_in (s_ext st') = lx_in (s_ext st) /\ (exists bs, lx_out (s_ext st') = lx_out (s_ext st) ++ bs /\ Forall topic_is_string bs) /\
  exists ops, Forall lop_of_script ops /\ listeners_of (s_ext st') (ops ++ hist) /\
    forall topic, 0 <= topic < 65536 -> lis_get (lx_listen (s_ext st')) topic = listener (ops ++ hist) topic.
Proof.
  intros k c fid strtof powf sid ref fs n l hist st st' [HO HX] HR.
  pose proof (kp_run strtof powf sid ref fs (listen_cfun fid k c) (holds_of (registered_since (s_ext st))) (kl_cfun fid k c (s_ext st)) n l st) as H. rewrite HR in H.
  destruct H as (ops & bs & HF & HB & E). { exists [], []. split; [constructor|]. split; [constructor|]. rewrite app_nil_r. destruct (s_ext st). reflexivity. }
  rewrite E. split; [reflexivity|]. split; [exists bs; auto|]. exists ops. split; [exact HF|].
  assert (HN : listeners_of (mkLx (fold_right lis_apply (lx_listen (s_ext st)) ops) (lx_in (s_ext st)) (lx_out (s_ext st) ++ bs)) (ops ++ hist)).
  { split; [apply Forall_app; split; [eapply Forall_impl; [|exact HF]; intros ? [? _]; assumption|exact HO]|]. cbn. rewrite fold_right_app, HX. reflexivity. }
  split; [exact HN|]. intros topic Ht. apply listeners_get; assumption.
Qed.
Print Assumptions C127_scripts.

(** ** A script that registers two listeners, removes one and broadcasts a table *)
Definition li_names : list string := map fst (listen_list 9 demo_c).
Definition li_fid (n : string) : Z := position n li_names.
Definition li_flist : list (lvm -> res lvm) := map snd (listen_list 9 demo_c).
Definition li_files := one_file (bs "neighbors.listen(""t"", function(a, b, c) { x = b })
neighbors.listen(""u"", function(a, b, c) { y = b })
neighbors.ignore(""t"")
z = {}
z[1] = 5
neighbors.broadcast(""u"", z)").
Definition li_script : stats := got_script (script_of no_strtof_ li_files 900 (bs "main")).
Definition li_asm : list Z := got_asm (bzzparse li_files 1500 [] (bs "main")).
Definition li_code : list Z := got_code (buzz_asm no_strtof_ li_asm).
Definition li_start : lext := mkLx (pnew 10) inq_new [].
Definition li_loaded : res (lvm * vstat) := load_all li_fid li_flist no_powf li_code 12 60 (vm_new li_start).
Definition li_vm : lvm := match li_loaded with Ok (v, _) => v | _ => vm_new li_start end.
(** What waits to be sent, without the ids of strings. *)
Definition to_send (x : lext) : list (str * list (wobj * wobj)) :=
  map (fun m => (match fst m with WStr _ t => t | _ => [] end, match snd m with WTab b => concat b | _ => [] end)) (lx_out x).
(** The topics with a listener. *)
Definition topics (sm : strman) (x : lext) : list (option str) := map (fun e => sm_get sm (fst e)) (pentries (lx_listen x)).
Lemma li_registered : listen_registered li_fid 9 demo_c li_flist.
Proof.
  intros n f H. assert (ND : NoDup li_names). { apply distinct_names_ok. vm_compute. reflexivity. }
  assert (HZ : zlen (listen_list 9 demo_c) < 2 ^ 31) by (vm_compute; reflexivity).
  destruct (registered_at (listen_list 9 demo_c) n f ND H) as [P1 P2]. unfold li_fid, li_names, li_flist. split; [lia|exact P2].
Qed.
Example C126_C127_case :
  holds_script no_strtof_ li_files (bs "main") li_script /\ zlen li_asm < 2 ^ 31 /\ li_code <> [] /\ listen_registered li_fid 9 demo_c li_flist /\
  li_fid "buzzneighbors_listen"%string <> li_fid "buzzneighbors_ignore"%string /\ li_fid "buzzneighbors_listen"%string <> li_fid "buzzneighbors_broadcast"%string /\ li_fid "buzzneighbors_ignore"%string <> li_fid "buzzneighbors_broadcast"%string /\
  sm_live (v_str li_vm) < 65534 /\ ok_with (fun r => snd r = S_READY) li_loaded /\ listeners_of (v_ext li_vm) [] /\
  done_with (fun st => topics (s_str st) (s_ext st) = [Some (bs "u")] /\ to_send (s_ext st) = [(bs "u", [(WInt 1, WInt 5)])])
    (run no_strtof_ no_powf (name_id li_vm) (fun i => i) (functions li_script) (listen_cfun li_fid 9 demo_c) 3 li_script (mkSt (glob_of li_vm li_vm) (v_heap li_vm) (v_str li_vm) (v_ext li_vm))) /\
  ok_with (fun w => v_state w = S_DONE /\ topics (v_str w) (v_ext w) = [Some (bs "u")] /\ to_send (v_ext w) = [(bs "u", [(WInt 1, WInt 5)])]) (execute_script li_flist no_powf (byte li_code) (zlen li_code) 2000 li_vm).
Proof.
  split; [apply (script_of_ok _ _ 900); vm_compute; reflexivity|]. split; [vm_compute; reflexivity|]. split; [vm_compute; discriminate|]. split; [exact li_registered|].
  do 3 (split; [vm_compute; discriminate|]). split; [vm_compute; reflexivity|]. split; [vm_compute; reflexivity|]. split; [split; [constructor|vm_compute; reflexivity]|]. split; vm_compute; repeat split.
Qed.
