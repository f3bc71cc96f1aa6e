(** The standard library as a script finds it (C103), functions of the script with names of the library (C104), what the functions
    of the library do in scripts (C105). *)
From Coq Require Import String.
From Verif Require Import Base ListLemmas Float Dict PDict PDictKeys Strman StrmanSpec StrmanProofs Obj ObjSpec ObjProofs Instr Vm VmSpec VmProofs
  PropsVmData Text Lex LexSpec Asm AsmSpec Load PropsCompile PropsScript Strlib PropsSwarmExec WireProofs TableLibProofs PropsTableLib CFunSpec CFunProofs Parser Source CompileSpec GcSpec HostSpec NeighborsVm NeighborsVmSpec NeighborsVmProofs PropsNeighborsAdd Register LibrarySpec PropsHost LibraryProofs StdSpec StdProofs Front FrontProofs.
Local Open Scope Z_scope.
Local Open Scope list_scope.

Lemma glob_over_out g y G : ~ In y (map (fun e => bs (fst e)) G) -> glob_over g G y = g y.
Proof.
  induction G as [|[n o] G IH]; cbn [glob_over map fst]; [reflexivity|]. intro H. destruct (same (bs n) y) eqn:E; [apply GenStep.same_true in E; destruct H; left; exact E|]. apply IH. intro Q. apply H. right. exact Q.
Qed.
Lemma table_registers_app {X} t l1 l2 : forall v : vm X, table_registers t (l1 ++ l2) v = (w <- table_registers t l1 v ;; table_registers t l2 w).
Proof.
  induction l1 as [|e l1 IH]; intro v; [reflexivity|]. cbn [app table_registers]. destruct (table_register _ _ _); cbn [bind]; [apply IH|reflexivity..].
Qed.
Lemma Forall2_length {A B} (R : A -> B -> Prop) l l' : Forall2 R l l' -> length l = length l'.
Proof. induction 1; cbn; congruence. Qed.
Lemma members_ok fid sm b a t l L mem : flds sm t L -> Forall2 (is_member a) l L ->
  Forall2 (fun e m => fst e = fst m /\ denotes fid sm b (OTab a) (snd m) (bind_self (OTab a) (snd e))) l mem -> has_members fid sm b a t mem.
Proof.
  intros HF HM HD. split.
  - intros n x Hin.
    assert (Hf : exists f o, In f L /\ f_name f = bs n /\ f_val f = o /\ denotes fid sm b (OTab a) x o).
    { clear HF. revert mem HD Hin. induction HM as [|e f l L [A B] _ IH]; intros mem HD Hin; inversion HD as [|? m ? mem' [C D] HD']; subst; [destruct Hin|].
      destruct Hin as [->|Hin]; [exists f, (f_val f); split; [left; reflexivity|]; cbn [fst snd] in *; rewrite B; subst; auto|].
      destruct (IH mem' HD' Hin) as (f' & o & F1 & F2). exists f', o. split; [right; exact F1|exact F2]. }
    destruct Hf as (f & o & F1 & F2 & F3 & F4). exists o. split; [exact F4|]. pose proof (flds_get _ _ _ _ HF F1) as Hg. pose proof (fl_ok _ _ _ HF) as HO. rewrite Forall_forall in HO.
    destruct (HO f F1) as (A & B & _). rewrite F2 in *. rewrite F3 in Hg. exists (f_id f). auto.
  - split; [rewrite (flds_size _ _ _ HF); unfold zlen; f_equal; rewrite <- (Forall2_length _ _ _ HM); exact (Forall2_length _ _ _ HD)|].
    exists (map fld_op L). split; [|exact (fl_hist _ _ _ HF)]. apply Forall_map. eapply Forall_impl; [|exact (fl_ok _ _ _ HF)]. intros f Hf. exact Hf.
Qed.
Lemma methods_denote fid sm b a p l : Forall2 (fun e m => fst e = fst m /\ denotes fid sm b (OTab a) (snd m) (bind_self (OTab a) (snd e))) (methods_of fid p l) (c_members p l).
Proof. induction l; constructor; auto. split; reflexivity. Qed.

Lemma fresh_methods fid p l : incl l library_names -> Forall (fun n => numlike (bs n) = false) l -> NoDup (map bs l) -> fresh library_names (methods_of fid p l).
Proof.
  intros A B C. split; [split|].
  - unfold methods_of. rewrite map_map. cbn [fst]. rewrite map_id. exact A.
  - unfold methods_of. apply Forall_map. eapply Forall_impl; [|exact B]. intros n Hn. split; [exact Hn|discriminate].
  - unfold methods_of. rewrite map_map. exact C.
Qed.
Definition in_library (n : string) : bool := existsb (String.eqb n) library_names.
Lemma lib_in n : in_library n = true -> In n library_names.
Proof. intro H. apply existsb_exists in H as (x & A & B). apply String.eqb_eq in B. subst x. exact A. Qed.
Lemma lib_incl l : forallb in_library l = true -> incl l library_names.
Proof. intros H x Hx. rewrite forallb_forall in H. apply lib_in; auto. Qed.
Ltac in_lib := apply lib_incl; vm_compute; reflexivity.
Ltac nodup := apply (NoDup_count_occ' (list_eq_dec Z.eq_dec)); let x := fresh in let H := fresh in intros x H; vm_compute in H; repeat (destruct H as [<-|H]; [vm_compute; reflexivity|]); destruct H.
Ltac fresh_tac := apply fresh_methods; [in_lib|repeat constructor|nodup].

Lemma library_ok X (fid : string -> Z) robot sid ws (v : vm X) st0 :
  (forall s, In s ws -> 0 <= sid s < 65536) -> v_stacks v = [[]] -> prepared (keeping (v_str v)) sid ws v v st0 -> room_for library_names (v_str v) ->
  exists v1 st, (v2 <- neighbors_new (fun n => fid ("buzzneighbors_" ++ n)%string) v ;; v3 <- push_string v2 (bs "id") ;; v4 <- vm_gstore (push v3 (OInt robot)) ;; registers fid v4) = Ok v1 /\
    library fid robot st0 st /\ prepared (keeping (v_str v)) sid ws v v1 st.
Proof.
  intros HR HS (B1 & _ & _ & _ & A1 & A2 & A3 & A4 & A5 & A6 & A7 & A8) HRm.
  set (b := zlen (v_heap v)). set (inv' := @inv library_names sid ws (v_str v) (s_glob st0)).
  assert (HW : forall s, In s ws -> sm_get (v_str v) (sid s) = Some s) by (intros s Hs; apply A8; auto).
  assert (HI : inv' (v_str v) (v_gsyms v) []) by (split; [exact HRm|apply keeps_strings_refl|exact A2|exact A6]).
  assert (Hv : v = st4 v (v_gsyms v) (v_str v) (v_heap v) []) by (unfold st4; destruct v; cbn in *; subst; reflexivity).
  assert (HL : fresh library_names (methods_of fid "buzzneighbors_" (methods ++ ["broadcast"; "listen"; "ignore"]%string))) by fresh_tac.
  destruct (table_library fid library_names sid ws (v_str v) (s_glob st0) HR HW v "neighbors" _ (v_str v) (v_gsyms v) [] (v_heap v) HI ltac:(apply lib_in; reflexivity) HL) as (sm1 & g1 & t1 & L1 & id1 & E1 & K1 & I1 & F1 & M1 & _).
  assert (EN : neighbors_new (fun n => fid ("buzzneighbors_" ++ n)%string) v = Ok (st4 v g1 sm1 (v_heap v ++ [t1]) [])).
  { unfold neighbors_new. rewrite B1. cbn [is_ready negb]. unfold make_table. rewrite Hv at 1. rewrite st4_new, registers_methods.
    unfold methods_of in E1. rewrite map_app in E1. rewrite table_registers_app in E1.
    match type of E1 with context [table_registers _ ?lx _] => destruct (tables_ok library_names sid ws (v_str v) (s_glob st0) v [] (zlen (v_heap v)) ltac:(unfold zlen; lia) lx) with (sm := v_str v) (g := v_gsyms v) (G := @nil (string * obj)) (h := v_heap v ++ [tab_new]) (t := tab_new) (L := @nil fld) as (sm' & t' & L' & E' & _) end.
    { apply (fresh_methods fid "buzzneighbors_" methods); [in_lib|repeat constructor|nodup]. } { exact HI. } { apply new_nth. } { apply flds_new. } { change (NoDup (map bs methods)). nodup. }
    rewrite E' in E1. cbn [bind] in E1. fold (methods_of fid "buzzneighbors_" methods) in E'. rewrite E'. cbn [bind].
    change (v_state (st4 v (v_gsyms v) sm' (upd (v_heap v ++ [tab_new]) (Z.to_nat (zlen (v_heap v))) t') [])) with (v_state v). rewrite B1. cbn [is_ready negb]. rewrite registers_methods. exact E1. }
  rewrite EN. cbn [bind]. clear E1 EN.
  destruct (name_st4 library_names sid ws (v_str v) (s_glob st0) v g1 sm1 (v_heap v ++ [t1]) [] "id" _ I1 ltac:(apply lib_in; reflexivity)) as (sm2 & id2 & E2 & Hi2 & HG2 & K2 & I2).
  change (push_string (st4 v g1 sm1 (v_heap v ++ [t1]) []) (bs "id")) with (push_name (st4 v g1 sm1 (v_heap v ++ [t1]) []) "id"). rewrite E2. cbn [bind]. rewrite st4_push, gstore_st4. cbn [bind].
  pose proof (inv_set library_names sid ws (v_str v) (s_glob st0) HR HW _ _ _ _ _ (OInt robot) I2 Hi2 HG2) as I2'. unfold registers, obj_register.
  destruct (globals_ok fid library_names sid ws (v_str v) (s_glob st0) HR HW v (v_heap v ++ [t1]) [] obj_names ltac:(in_lib) _ _ _ I2') as (sm3 & g3 & E3 & K3 & I3). rewrite E3. cbn [bind]. clear E2 E3.
  unfold vstig_register. destruct (dup_library fid library_names sid ws (v_str v) (s_glob st0) HR HW v "stigmergy" (methods_of fid "buzzvstig_" ["create"]%string) _ _ _ (v_heap v ++ [t1]) I3 ltac:(apply lib_in; reflexivity) ltac:(fresh_tac)) as (sm4 & g4 & t4 & L4 & E4 & K4 & I4 & F4 & M4). rewrite E4. cbn [bind]. clear E4.
  rewrite <- app_assoc in *. cbn [app] in *.
  unfold swarm_register. destruct (dup_library fid library_names sid ws (v_str v) (s_glob st0) HR HW v "swarm" (methods_of fid "buzzswarm_" swarm_names) _ _ _ (v_heap v ++ [t1; t4]) I4 ltac:(apply lib_in; reflexivity) ltac:(fresh_tac)) as (sm5 & g5 & t5 & L5 & E5 & K5 & I5 & F5 & M5). rewrite E5. cbn [bind]. clear E5.
  rewrite <- app_assoc in *. cbn [app] in *.
  destruct (math_ok fid library_names sid ws (v_str v) (s_glob st0) HR HW v _ _ _ (v_heap v ++ [t1; t4; t5]) I5) as (sm6 & g6 & t6 & t7 & L6 & L7 & E6 & K6 & I6 & F6 & M6 & F7 & M7); [apply lib_in; reflexivity..|fresh_tac|fresh_tac|]. rewrite E6. cbn [bind]. clear E6.
  rewrite <- app_assoc in *. cbn [app] in *.
  destruct (io_ok fid library_names sid ws (v_str v) (s_glob st0) HR HW v _ _ _ (v_heap v ++ [t1; t4; t5; t6; t7]) I6) as (sm8 & g8 & t8 & L8 & id8 & E8 & K8 & I8 & Hi8 & HG8 & F8 & M8); [apply lib_in; reflexivity..|fresh_tac|]. rewrite E8. cbn [bind]. clear E8.
  rewrite <- app_assoc in *. cbn [app] in *. unfold string_register. rewrite st4_new.
  destruct (table_library fid library_names sid ws (v_str v) (s_glob st0) HR HW v "string" (methods_of fid "buzzstring_" string_names) _ _ _ (v_heap v ++ [t1; t4; t5; t6; t7; t8]) I8 ltac:(apply lib_in; reflexivity) ltac:(fresh_tac)) as (sm9 & g9 & t9 & L9 & id9 & E9 & K9 & I9 & F9 & M9 & _).
  rewrite E9. clear E9. rewrite <- app_assoc in *. cbn [app] in *.
  repeat rewrite zlen_app in *. fold b in M1, M4, M5, M6, M7, M8, M9, I9.
  change (zlen [t1]) with 1 in *. change (zlen [t1; t4]) with 2 in *. change (zlen [t1; t4; t5]) with 3 in *. change (zlen [t1; t4; t5; t6; t7]) with 5 in *. change (zlen [t1; t4; t5; t6; t7; t8]) with 6 in *.
  match type of I9 with inv _ _ _ _ _ _ _ ?G => set (GG := G) in I9 end.
  exists (st4 v g9 sm9 (v_heap v ++ [t1; t4; t5; t6; t7; t8; t9]) []), (mkSt (glob_over (s_glob st0) GG) (s_heap st0 ++ [t1; t4; t5; t6; t7; t8; t9]) sm9 (s_ext st0)).
  split; [reflexivity|].
  assert (K89 : keeps_strings sm8 sm9) by exact K9. assert (K69 : keeps_strings sm6 sm9) by (eapply keeps_strings_trans; eauto).
  assert (K59 : keeps_strings sm5 sm9) by (eapply keeps_strings_trans; eauto). assert (K49 : keeps_strings sm4 sm9) by (eapply keeps_strings_trans; eauto).
  assert (K39 : keeps_strings sm3 sm9) by (eapply keeps_strings_trans; eauto). assert (K19 : keeps_strings sm1 sm9) by (eapply keeps_strings_trans; [|exact K39]; eapply keeps_strings_trans; eauto).
  assert (K09 : keeps_strings (v_str v) sm9) by (eapply keeps_strings_trans; eauto).
  assert (Hb : b = zlen (s_heap st0)) by (unfold b; rewrite A3; reflexivity). clearbody b. split.
  - split.
    + exists [t1; t4; t5; t6; t7; t8; t9]. split; [reflexivity|]. split; [reflexivity|]. cbn [s_str]. rewrite <- Hb.
      intros i l t Hl Ht. destruct i as [|[|[|[|[|[|[|i]]]]]]]; cbn [nth_error library_tables] in Hl, Ht; try (inversion Hl; inversion Ht; subst l t).
      * change (Z.of_nat 0) with 0. rewrite Z.add_0_r. eapply members_ok; [eapply flds_mono; [exact K19|exact F1]|exact M1|]. apply methods_denote.
      * change (Z.of_nat 1) with 1. eapply members_ok; [eapply flds_mono; [exact K49|exact F4]|exact M4|]. apply methods_denote.
      * change (Z.of_nat 2) with 2. eapply members_ok; [eapply flds_mono; [exact K59|exact F5]|exact M5|]. apply methods_denote.
      * change (Z.of_nat 3) with 3. eapply members_ok; [eapply flds_mono; [exact K69|exact F6]|exact M6|]. match goal with |- Forall2 ?R (?x ++ ?y) _ => change (Forall2 R (x ++ y) (c_members "buzzmath_" math_names ++ [("pi"%string, V_val (OFloat pi_value)); ("rng"%string, V_table 4)])) end. apply Forall2_app; [apply methods_denote|]. constructor; [split; reflexivity|].
        constructor; [|constructor]. split; [reflexivity|]. cbn [snd denotes bind_self]. f_equal. lia.
      * change (Z.of_nat 4) with 4. replace (b + 3 + 1) with (b + 4) in M7 by lia. eapply members_ok; [eapply flds_mono; [exact K69|exact F7]|exact M7|]. apply methods_denote.
      * change (Z.of_nat 5) with 5. eapply members_ok; [eapply flds_mono; [exact K89|exact F8]|exact M8|]. match goal with |- Forall2 ?R (?x ++ ?y) _ => change (Forall2 R (x ++ y) (c_members "buzzio_" io_names ++ [("errno"%string, V_val (OInt 0)); ("error_message"%string, V_text "No error")])) end. apply Forall2_app; [apply methods_denote|]. constructor; [split; reflexivity|].
        constructor; [|constructor]. split; [reflexivity|]. cbn [snd denotes bind_self]. exists id8. auto.
      * change (Z.of_nat 6) with 6. eapply members_ok; [exact F9|exact M9|]. apply methods_denote.
      * destruct i; discriminate.
    + cbn [s_str s_glob]. rewrite <- Hb. intros n x Hin. unfold GG. cbn in Hin.
      repeat (destruct Hin as [Hin|Hin]; [inversion Hin; subst n x; clear Hin|]); [..|destruct Hin]; cbn [denotes]; try reflexivity;
rewrite Z.add_0_r; reflexivity.
    + cbn [s_glob]. intros y Hy. apply glob_over_out. intro Q. apply Hy. unfold GG in Q. cbn [map app rev obj_names fst] in Q. cbn [library_globals map app fst c_members]. cbn [In] in Q |- *. tauto.
    + cbn [s_str]. rewrite <- A4. exact K09.
    + cbn [s_str]. destruct (inv_room _ _ _ _ _ _ _ _ I9) as (_ & new & _ & Hlv). unfold zlen in Hlv. lia.
    + reflexivity.
  - split; [exact B1|]. split; [reflexivity|]. split; [rewrite HS; unfold st4, st3; cbn; rewrite HS; reflexivity|]. split; [reflexivity|].
    split; [exact A1|]. split; [exact (inv_stored _ _ _ _ _ _ _ _ I9)|]. split; [cbn [s_heap]; rewrite <- A3; reflexivity|]. split; [reflexivity|]. split; [exact A5|].
    split; [intros y Hy; exact (inv_glob _ _ _ _ _ _ _ _ I9 y Hy)|]. split; [|exact A8].
    split; [exact (room_strings _ _ (inv_room _ _ _ _ _ _ _ _ I9))|exact K09].
Qed.

Lemma room_live l sm : strings_ok sm -> sm_live sm + zlen l < 65534 -> room_for l sm.
Proof. intros (ops & outs & A & B) H. split; [exists ops, outs; auto|]. exists l. split; [auto|exact H]. Qed.

(** ** C103 *)
(** A script in files is compiled, assembled and loaded, with the standard library (buzzvm_set_bcode), when there is room
    for the strings of the library: then every name of the library denotes what it should, the other names what
    the script defines, and executing the script gives what the language says from there. *)
Theorem C103_standard_library :
  forall strtof open name path text ps ts l,
  open name = Some (path, text) -> text ++ [NL] = layout ps -> reads open [path] path [] ps ts ->
  (forall t, In t ts -> t_line t < 2 ^ 63 /\ t_col t < 2 ^ 63 /\ plain_path (t_file t)) ->
  spells_script ts l -> ok_script strtof l = true ->
  NoDup (map fn_id (functions l)) -> zlen (nodup (list_eq_dec Z.eq_dec) (words l)) <= 65534 ->
  exists k0 asm, (forall k, (k0 <= k)%nat -> bzzparse open k [] name = Ok (Some asm)) /\
  (zlen asm < 2 ^ 31 ->
   exists code dbg sid ref,
     buzz_asm strtof asm = Ok (0, code, dbg) /\
     (forall f h, In f (functions l) -> In h (functions l) -> ref (fn_id f) = ref (fn_id h) -> f = h) /\
     (forall s, In s (words l) -> 0 <= sid s < 65536) /\
     exists m, forall X (x : X) fid robot flist powf fuel, (m <= fuel)%nat ->
     exists v, load_code flist powf code fuel (vm_new x) = Ok (v, true) /\
       (sm_live (v_str v) + zlen library_names < 65534 ->
        exists v1 st, load_all fid flist powf code robot fuel (vm_new x) = Ok (v1, S_READY) /\
          library fid robot (start ref l (v_str v) x) st /\
          prepared (keeping (v_str v)) sid (words l) v v1 st /\
          forall cfun, c_functions flist (keeping (v_str v)) cfun ->
            (forall n, executes code (keeping (v_str v)) sid (words l) (fun fuel => execute_script flist powf (byte code) (zlen code) fuel v1)
                         (run strtof powf sid ref (functions l) cfun n l st)) /\
            ((forall n, run strtof powf sid ref (functions l) cfun n l st = More) ->
             forall fuel, execute_script flist powf (byte code) (zlen code) fuel v1 = Hang))).
Proof.
  intros strtof open name path text ps ts l HO HT HR HP HS HOK HID HW.
  destruct (script_file strtof open name path text ps ts l HO HT HR HP HS HOK HID HW) as (k0 & asm & HC & H). exists k0, asm. split; [exact HC|]. intro HA.
  destruct (H HA) as (code & dbg & sid & ref & H1 & H2 & HR0 & m & H3). exists code, dbg, sid, ref. split; auto. split; auto. split; auto. exists m. intros X x fid robot flist powf fuel Hf.
  destruct (H3 X x flist powf fuel Hf) as (v & V1 & V2 & V3 & V3' & V4). exists v. split; auto. intro HLv.
  destruct (library_ok X fid robot sid (words l) v _ HR0 V3' (prepared_keeping X sid (words l) v v _ HR0 V3 V2) (room_live _ _ V3 HLv)) as (v1 & st & E & HLib & HPr).
  exists v1, st. split; [|split; [exact HLib|split; [exact HPr|]]].
  - unfold load_all, set_bcode. rewrite V1. cbn [bind]. destruct (neighbors_new _ v) as [v2| | |]; cbn [bind] in *; try discriminate. destruct (push_string v2 (bs "id")) as [v3| | |]; cbn [bind] in *; try discriminate.
    destruct (vm_gstore (push v3 (OInt robot))) as [v4| | |]; cbn [bind] in *; try discriminate. rewrite E. reflexivity.
  - intros cfun Hc. exact (proj1 (V4 _ _ Hc) v1 st HPr).
Qed.
Print Assumptions C103_standard_library.

(** A function that the script defines under a name of the library is not what the name denotes once the script is loaded. *)
Lemma denotes_c fid sm b robot n x o : In (n, x) (library_globals robot) -> denotes fid sm b ONil x o -> forall r l, o <> OClos true r l.
Proof.
  intros HI HD r l ->. assert (H : match x with V_C _ | V_text _ | V_table _ => True | V_val y => y = OInt robot end).
  { revert HI. unfold library_globals. intro HI. apply in_app_or in HI as [HI|HI].
    - cbn [In] in HI. repeat destruct HI as [HI|HI]; try (injection HI as <- <-; exact I || reflexivity); destruct HI.
    - apply in_app_or in HI as [HI|HI]; apply in_map_iff in HI as (m & E & _); injection E as <- <-; exact I. }
  destruct x; cbn in HD; [discriminate|subst; discriminate|destruct HD as (? & _ & _ & ?); discriminate|discriminate].
Qed.
Theorem C104_library_replaces_functions :
  forall X fid robot ref l sm (x : X) st n,
  library fid robot (start ref l sm x) st -> In n (map fst (library_globals robot)) -> In (bs n) (map fst (defined l)) ->
  (exists id, In (bs n, id) (defined l) /\ s_glob (start ref l sm x) (bs n) = OClos true (ref id) [ONil]) /\
  forall r a, s_glob st (bs n) <> OClos true r a.
Proof.
  intros X fid robot ref l sm x st n HL HN HD. split.
  - unfold start. cbn [s_glob]. destruct (find _ (rev (defined l))) as [[d id]|] eqn:E.
    + apply find_some in E as [E1 E2]. cbn in E2. apply GenStep.same_true in E2. subst d. exists id. split; [apply in_rev; exact E1|reflexivity].
    + exfalso. apply in_map_iff in HD as ([d id] & E1 & E2). cbn in E1. subst d. apply in_rev in E2. pose proof (find_none _ _ E _ E2) as Q. cbn in Q. unfold same in Q. destruct (list_eq_dec Z.eq_dec _ _); congruence.
  - apply in_map_iff in HN as ([n' v] & E1 & E2). cbn in E1. subst n'. intros r a Q. pose proof (lib_globals _ _ _ _ HL n v E2) as D. exact (denotes_c _ _ _ _ _ _ _ E2 D r a Q).
Qed.
Print Assumptions C104_library_replaces_functions.

Theorem C105_library_functions :
  forall strtof open name path text ps ts l,
  open name = Some (path, text) -> text ++ [NL] = layout ps -> reads open [path] path [] ps ts ->
  (forall t, In t ts -> t_line t < 2 ^ 63 /\ t_col t < 2 ^ 63 /\ plain_path (t_file t)) ->
  spells_script ts l -> ok_script strtof l = true ->
  NoDup (map fn_id (functions l)) -> zlen (nodup (list_eq_dec Z.eq_dec) (words l)) <= 65534 ->
  exists k0 asm, (forall k, (k0 <= k)%nat -> bzzparse open k [] name = Ok (Some asm)) /\
  (zlen asm < 2 ^ 31 ->
   exists code dbg sid ref,
     buzz_asm strtof asm = Ok (0, code, dbg) /\
     (forall f h, In f (functions l) -> In h (functions l) -> ref (fn_id f) = ref (fn_id h) -> f = h) /\
     exists m, forall X (x : X) c fid robot flist powf fuel, std_registered c fid flist -> (m <= fuel)%nat ->
     exists v, load_code flist powf code fuel (vm_new x) = Ok (v, true) /\
       (sm_live (v_str v) + zlen library_names < 65534 ->
        exists v1 st, load_all fid flist powf code robot fuel (vm_new x) = Ok (v1, S_READY) /\
          library fid robot (start ref l (v_str v) x) st /\
          (forall n, executes code (keeping (v_str v)) sid (words l) (fun fuel => execute_script flist powf (byte code) (zlen code) fuel v1)
                       (run strtof powf sid ref (functions l) (std_cfun c fid) n l st)) /\
          ((forall n, run strtof powf sid ref (functions l) (std_cfun c fid) n l st = More) ->
           forall fuel, execute_script flist powf (byte code) (zlen code) fuel v1 = Hang))).
Proof.
  intros strtof open name path text ps ts l HO HT HR HP HS HOK HID HW.
  destruct (C103_standard_library strtof open name path text ps ts l HO HT HR HP HS HOK HID HW) as (k0 & asm & HC & H). exists k0, asm. split; [exact HC|]. intro HA.
  destruct (H HA) as (code & dbg & sid & ref & H1 & H2 & _ & m & H3). exists code, dbg, sid, ref. split; auto. split; auto. exists m. intros X x c fid robot flist powf fuel HG Hf.
  destruct (H3 X x fid robot flist powf fuel Hf) as (v & V1 & V2). exists v. split; auto. intro HLv. destruct (V2 HLv) as (v1 & st & W1 & W2 & W3 & W4). exists v1, st. split; auto. split; auto.
  exact (W4 _ (std_ok X c fid flist (v_str v) HG)).
Qed.
Print Assumptions C105_library_functions.

(** A script that uses the library, and defines a function with a name of the library.  The C library is not called. *)
Definition demo_files (name : list Z) : option (list Z * list Z) :=
  if list_eq_dec Z.eq_dec name (bs "main") then Some (bs "/main",
    bs "s = string.concat('ro', 'bot')
n = string.length(s)
t = string.sub(s, 2)
m = math.max(size({.a=1, .b=2}), math.abs(-7))
k = type(n)
i = string.toint('42') + int(math.pi)
function reduce() { return 42 }
f = reduce
r = id")
  else None.
Definition got_script (o : option stats) : stats := match o with Some l => l | None => Ss_nil end.
Definition got_asm (r : res (option (list Z))) : list Z := match r with Ok (Some t) => t | _ => [] end.
Definition got_code {A B} (r : res (A * list Z * B)) : list Z := match r with Ok (_, c, _) => c | _ => [] end.
Definition got_vm {A} (r : res (vm unit * A)) : vm unit := match r with Ok (v, _) => v | _ => vm_new tt end.
Definition got_id (o : option Z) : Z := match o with Some i => i | None => -1 end.
Definition got_obj (o : option obj) : obj := match o with Some x => x | None => ONil end.
Definition demo_script : stats := got_script (script_of no_strtof_ demo_files 600 (bs "main")).
Definition demo_asm : list Z := got_asm (bzzparse demo_files 1000 [] (bs "main")).
Definition demo_code : list Z := got_code (buzz_asm no_strtof_ demo_asm).
Definition demo_c : clib := Build_clib (fun _ f => f) (fun f _ => f) (fun _ => []) (fun _ => None) (fun _ => S754_zero false) strcmp.
Definition demo_flist : list (vm unit -> res (vm unit)) := map snd (std_list demo_c).
Fixpoint position (n : string) (l : list string) : Z := match l with [] => 0 | x :: l => if String.eqb x n then 0 else 1 + position n l end.
Definition demo_fid (n : string) : Z := position n (map fst (std_list (X := unit) demo_c)).

Definition demo_load : res (vm unit * vstat) := load_all demo_fid demo_flist no_powf demo_code 12 60 (vm_new tt).
Definition demo_vm : vm unit := got_vm demo_load.
Definition demo_sid (t : str) : Z := got_id (s2i_get (str2id (v_str demo_vm)) t).
Definition demo_glob {X} (v : vm X) (t : str) : obj := got_obj (gsym_get (v_gsyms v) (demo_sid t)).
Definition done_with {X} (P : sst X -> Prop) (o : out (sst X)) : Prop := match o with Done st => P st | _ => False end.
Definition ok_with {A} (P : A -> Prop) (r : res A) : Prop := match r with Ok x => P x | _ => False end.
Definition demo_end (g : str -> obj) : Prop :=
  string_is (g (bs "s")) (bs "robot") /\ g (bs "n") = OInt 5 /\ string_is (g (bs "t")) (bs "bot") /\ g (bs "m") = OInt 7 /\ string_is (g (bs "k")) (bs "integer") /\
  g (bs "i") = OInt 45 /\ g (bs "r") = OInt 12.

Fixpoint distinct_names (l : list string) : bool := match l with [] => true | n :: l => negb (existsb (String.eqb n) l) && distinct_names l end.
Lemma distinct_names_ok l : distinct_names l = true -> NoDup l.
Proof.
  induction l as [|n l IH]; cbn; intro H; constructor; apply andb_prop in H as [H1 H2]; auto. intro Q. apply negb_true_iff in H1. rewrite <- not_true_iff_false in H1. apply H1, existsb_exists. exists n. split; [exact Q|apply String.eqb_refl].
Qed.
Example C103_C105_case :
  holds_script no_strtof_ demo_files (bs "main") demo_script /\ zlen demo_asm < 2 ^ 31 /\ demo_code <> [] /\ std_registered demo_c demo_fid demo_flist /\
  sm_live (v_str demo_vm) < 65534 /\ ok_with (fun r => snd r = S_READY) demo_load /\
  done_with (fun st => demo_end (s_glob st))
    (run no_strtof_ no_powf demo_sid (fun i => i) (functions demo_script) (std_cfun demo_c demo_fid) 3 demo_script (mkSt (demo_glob demo_vm) (v_heap demo_vm) (v_str demo_vm) tt)) /\
  ok_with (fun w => v_state w = S_DONE /\ demo_end (demo_glob w) /\ demo_glob w (bs "f") = OClos false (demo_fid "buzzobj_reduce") [ONil])
    (execute_script demo_flist no_powf (byte demo_code) (zlen demo_code) 1000 demo_vm).
Proof.
  split; [apply (script_of_ok _ _ 600); vm_compute; reflexivity|]. split; [vm_compute; reflexivity|]. split; [vm_compute; discriminate|]. split.
  { intros n f H. unfold demo_flist. assert (HP : forall l : list (string * (vm unit -> res (vm unit))), NoDup (map fst l) -> In (n, f) l ->
      0 <= position n (map fst l) < zlen l /\ nth_error (map snd l) (Z.to_nat (position n (map fst l))) = Some f).
    { clear H. induction l as [|[m g] l IH]; intros HN H; [destruct H|]. cbn [map fst snd position]. inversion HN as [|? ? N1 N2]; subst. destruct (String.eqb m n) eqn:E.
      - apply String.eqb_eq in E. subst m. destruct H as [H|H]; [injection H as ->; split; [unfold zlen; cbn [length]; lia|reflexivity]|]. destruct N1. apply in_map_iff. exists (n, f). auto.
      - destruct H as [H|H]; [injection H as -> ->; rewrite String.eqb_refl in E; discriminate|]. destruct (IH N2 H) as [P1 P2]. split; [unfold zlen in *; cbn [length]; lia|].
        replace (Z.to_nat _) with (S (Z.to_nat (position n (map fst l)))) by lia. exact P2. }
    assert (ND : NoDup (map fst (std_list (X := unit) demo_c))). { apply distinct_names_ok. vm_compute. reflexivity. }
    destruct (HP _ ND H) as [P1 P2]. split; [|exact P2]. assert (zlen (std_list (X := unit) demo_c) = 34) by reflexivity. unfold demo_fid. lia. }
  split; [vm_compute; reflexivity|]. split; [vm_compute; reflexivity|]. split; vm_compute; repeat split.
Qed.

(** C104 on a script: it defines size, and calls it. *)
Definition own_files (name : list Z) : option (list Z * list Z) :=
  if list_eq_dec Z.eq_dec name (bs "main") then Some (bs "/main", bs "function size(x) { return 42 }
y = size({.a=1})") else None.
Definition own_script : stats := got_script (script_of no_strtof_ own_files 300 (bs "main")).
Definition own_code : list Z := got_code (buzz_asm no_strtof_ (got_asm (bzzparse own_files 600 [] (bs "main")))).
Definition own_id : Z := got_id (s2i_get (str2id (v_str (got_vm (load_all demo_fid demo_flist no_powf own_code 12 60 (vm_new tt))))) (bs "y")).
(** The script as written gives 42; the machine, loaded as buzzvm_set_bcode does, gives 1. *)
Theorem C104_script_functions_refuted :
  exists files l asm code v w i,
    holds_script no_strtof_ files (bs "main") l /\ bzzparse files 600 [] (bs "main") = Ok (Some asm) /\ (exists dbg, buzz_asm no_strtof_ asm = Ok (0, code, dbg)) /\
    done_with (fun st => s_glob st (bs "y") = OInt 42) (run no_strtof_ no_powf (fun t => zlen t) (fun k => k) (functions l) no_c 3 l (start (fun k => k) l sm_new tt)) /\
    load_all demo_fid demo_flist no_powf code 12 60 (vm_new tt) = Ok (v, S_READY) /\
    execute_script demo_flist no_powf (byte code) (zlen code) 1000 v = Ok w /\ v_state w = S_DONE /\ sm_get (v_str w) i = Some (bs "y") /\ gsym_get (v_gsyms w) i = Some (OInt 1).
Proof.
  exists own_files, own_script. eexists. exists own_code. eexists. eexists. exists own_id.
  split; [apply (script_of_ok _ _ 300); vm_compute; reflexivity|]. split; [vm_compute; reflexivity|]. split; [eexists; vm_compute; reflexivity|]. split; [vm_compute; reflexivity|].
  split; [vm_compute; reflexivity|]. split; [vm_compute; reflexivity|]. split; [vm_compute; reflexivity|]. split; vm_compute; reflexivity.
Qed.
Print Assumptions C104_script_functions_refuted.
