(** The functions on swarms in scripts: any script (C115), each call (C116), a whole script (C117), set operations on what is no
    swarm (C118). *)
From Coq Require Import String.
From Verif Require Import Base ListLemmas Float Dict DictSpec PDict DictProofs PDictKeys Strman StrmanSpec StrmanProofs Obj ObjSpec ObjProofs Instr Vm VmSpec VmProofs
  PropsVmData Text Lex LexSpec Asm AsmSpec Load PropsCompile PropsScript Strlib PropsSwarmExec WireProofs TableLib TableLibProofs PropsTableLib CFunSpec CFunProofs Parser Source CompileSpec GcSpec HostSpec NeighborsVm NeighborsVmSpec NeighborsVmProofs PropsNeighborsAdd Register LibrarySpec PropsHost LibraryProofs StdSpec StdProofs Front FrontProofs Meaning PropsLibrary
  OutMsg Swarm SwarmSpec SwarmProofs SwarmVm SwarmVmSpec SwarmVmProofs.
Local Open Scope Z_scope.
Local Open Scope list_scope.

(** ** C115 *)
(** Scripts that use the standard library with the functions on swarms do what the language says, with [lib_cfun] for the meaning
    of the functions.  [sw] and [put_sw]: where the swarms and the outgoing messages of the robot are, in what the virtual
    machine holds beside the model of scripts. *)
Theorem C115_swarm_functions :
  forall strtof open name path text ps ts l,
  open name = Some (path, text) -> text ++ [NL] = layout ps -> reads open [path] path [] ps ts ->
  (forall t, In t ts -> t_line t < 2 ^ 63 /\ t_col t < 2 ^ 63 /\ plain_path (t_file t)) ->
  spells_script ts l -> ok_script strtof l = true ->
  NoDup (map fn_id (functions l)) -> zlen (nodup (list_eq_dec Z.eq_dec) (words l)) <= 65534 ->
  exists k0 asm, (forall k, (k0 <= k)%nat -> bzzparse open k [] name = Ok (Some asm)) /\
  (zlen asm < 2 ^ 31 ->
   exists code dbg sid ref,
     buzz_asm strtof asm = Ok (0, code, dbg) /\
     (forall f h, In f (functions l) -> In h (functions l) -> ref (fn_id f) = ref (fn_id h) -> f = h) /\
     exists m, forall X (x : X) (sw : X -> swst) put_sw c fid robot flist powf fuel, lib_registered fid sw put_sw c flist -> (m <= fuel)%nat ->
     exists v, load_code flist powf code fuel (vm_new x) = Ok (v, true) /\
       (sm_live (v_str v) + zlen library_names < 65534 ->
        exists v1 st, load_all fid flist powf code robot fuel (vm_new x) = Ok (v1, S_READY) /\
          library fid robot (start ref l (v_str v) x) st /\
          (forall n, executes code (keeping (v_str v)) sid (words l) (fun fuel => execute_script flist powf (byte code) (zlen code) fuel v1)
                       (run strtof powf sid ref (functions l) (lib_cfun fid sw put_sw c) n l st)) /\
          ((forall n, run strtof powf sid ref (functions l) (lib_cfun fid sw put_sw c) n l st = More) ->
           forall fuel, execute_script flist powf (byte code) (zlen code) fuel v1 = Hang))).
Proof.
  intros strtof open name path text ps ts l HO HT HR HP HS HOK HID HW.
  destruct (C103_standard_library strtof open name path text ps ts l HO HT HR HP HS HOK HID HW) as (k0 & asm & HC & H). exists k0, asm. split; [exact HC|]. intro HA.
  destruct (H HA) as (code & dbg & sid & ref & H1 & H2 & _ & m & H3). exists code, dbg, sid, ref. split; auto. split; auto. exists m. intros X x sw put_sw c fid robot flist powf fuel HG Hf.
  destruct (H3 X x fid robot flist powf fuel Hf) as (v & V1 & V2). exists v. split; auto. intro HLv. destruct (V2 HLv) as (v1 & st & W1 & W2 & W3 & W4). exists v1, st. split; auto. split; auto.
  refine (W4 _ _). apply lib_ok. exact HG.
Qed.
Print Assumptions C115_swarm_functions.

(** ** What the functions do to the state *)
Lemma found_in {A} (fid : string -> Z) (l : list (string * A)) n m : NoDup (map (fun e => fid (fst e)) l) -> In (n, m) l -> find (fun e => fid (fst e) =? fid n) l = Some (n, m).
Proof.
  intros HN HI. induction l as [|e l IH]; [destruct HI|]. cbn [find]. inversion HN as [|? ? N1 N2]; subst. destruct HI as [->|HI]; [cbn [fst]; rewrite Z.eqb_refl; reflexivity|].
  destruct (Z.eqb_spec (fid (fst e)) (fid n)) as [E|E]; [|auto]. destruct N1. rewrite E. apply in_map_iff. exists (n, m). auto.
Qed.
Section Calls.
Context {X : Type}.
Variable fid : string -> Z.
Variable sw : X -> swst.
Variable put_sw : X -> swst -> X.
Notation sst := (sst X).
Implicit Types st : sst.

Lemma new_name_room l st n : room_for l (s_str st) -> In n l ->
  exists sm id, new_name st (bs n) = Done (OStr id (bs n), set_strs st sm) /\ 0 <= id < 65536 /\ sm_get sm id = Some (bs n) /\ keeps_strings (s_str st) sm /\ room_for l sm /\
    (forall j, 0 <= j < 65536 -> sm_get (s_str st) j = Some (bs n) -> j = id).
Proof.
  intros HR Hn. destruct (register_room l (s_str st) n true HR Hn) as (sm & id & E & H). exists sm, id. split; [|exact H].
  unfold new_name. rewrite E. destruct HR as [_ (new & _ & HL)]. unfold zlen in HL. destruct (Z.ltb_spec (sm_live (s_str st)) 65534); [reflexivity|lia].
Qed.
Definition names7 : list string := (swarm_methods ++ ["id"])%list%string.

Lemma members_ok names a st0 : 0 <= a -> forall l sm h t L, room_for names sm -> incl (map fst l) names -> NoDup (map (fun e => bs (fst e)) l) ->
  (forall n, In n (map fst l) -> numlike (bs n) = false /\ ~ In (bs n) (map f_name L)) -> (forall e, In e l -> snd e <> ONil) ->
  nth_error h (Z.to_nat a) = Some t -> flds sm t L ->
  exists sm' t' L', new_members (OTab a) l (mkSt (s_glob st0) h sm (s_ext st0)) = Done (mkSt (s_glob st0) (upd h (Z.to_nat a) t') sm' (s_ext st0)) /\
    keeps_strings sm sm' /\ room_for names sm' /\ flds sm' t' (L ++ L') /\ Forall2 (fun e f => f_name f = bs (fst e) /\ f_val f = bind_self (OTab a) (snd e)) l L'.
Proof.
  intro Ha. induction l as [|[n o] l IH]; intros sm h t L HR HI HN HL HO Ht HF.
  - exists sm, t, []. cbn [new_members]. rewrite app_nil_r, (upd_id _ _ _ Ht). split; [reflexivity|]. split; [apply keeps_strings_refl|]. auto.
  - cbn [new_members]. destruct (new_name_room names (mkSt (s_glob st0) h sm (s_ext st0)) n HR) as (sm1 & id & E & Hi & Hg & HK & HR1 & _); [apply HI; left; reflexivity|].
    cbn [s_str] in *. rewrite E. cbn [obind]. destruct (HL n (or_introl eq_refl)) as [Hl1 Hl2].
    destruct (flds_set sm1 t L (bs n) id (bind_self (OTab a) o) (flds_mono _ _ _ _ HK HF) Hl2 Hl1 Hi Hg) as (t1 & Es & HF1).
    inversion HN as [|? ? N1 N2]; subst. cbn [map fst] in N1.
    assert (Hlen : (Z.to_nat a < Datatypes.length h)%nat) by (apply nth_error_Some; congruence).
    destruct (IH sm1 (upd h (Z.to_nat a) t1) t1 (L ++ [mkFld (bs n) id (bind_self (OTab a) o)]) HR1) as (sm2 & t2 & L2 & E2 & K2 & R2 & F2 & M2).
    + intros m Hm. apply HI. right. exact Hm.
    + exact N2.
    + intros m Hm. destruct (HL m (or_intror Hm)) as [Q1 Q2]. split; [exact Q1|]. rewrite map_app, in_app_iff. intros [Q|[Q|[]]]; [auto|]. cbn [f_name] in Q. apply N1. rewrite Q.
      apply in_map_iff in Hm as (e & <- & He). apply in_map_iff. exists e. auto.
    + intros e He. apply HO. right. exact He.
    + apply nth_error_upd_same. exact Hlen.
    + exact HF1.
    + exists sm2, t2, (mkFld (bs n) id (bind_self (OTab a) o) :: L2). split; [|split; [eapply keeps_strings_trans; eauto|split; [exact R2|split; [rewrite <- app_assoc in F2; exact F2|constructor; [split; reflexivity|exact M2]]]]].
      unfold put_val. cbn [is_key set_strs s_heap]. unfold table_at. rewrite Ht, (proj2 (Z.leb_le 0 a) Ha). cbn [obind].
      replace (match o with ONil => tab_remove t (OStr id (bs n)) | _ => tab_set t (OStr id (bs n)) (bind_self (OTab a) o) end) with (Ok t1)
        by (specialize (HO _ (or_introl eq_refl)); cbn [snd] in HO; destruct o; try congruence; symmetry; exact Es).
      cbn [of_res obind]. unfold set_tabs, set_strs. cbn [s_glob s_str s_ext]. rewrite E2. rewrite upd_upd. reflexivity.
Qed.

Lemma new_swarm_ok st0 sm h id : room_for names7 sm ->
  exists sm' t L, new_swarm fid (mkSt (s_glob st0) h sm (s_ext st0)) id = Done (OTab (zlen h), mkSt (s_glob st0) (h ++ [t]) sm' (s_ext st0)) /\
    keeps_strings sm sm' /\ room_for names7 sm' /\ flds sm' t L /\
    Forall2 (fun e f => f_name f = bs (fst e) /\ f_val f = bind_self (OTab (zlen h)) (snd e)) (swarm_members fid id) L.
Proof.
  intro HR. assert (Ha : 0 <= zlen h) by (unfold zlen; lia).
  destruct (members_ok names7 (zlen h) st0 Ha (swarm_members fid id) sm (h ++ [tab_new]) tab_new [] HR) as (sm' & t & L & E & K & R & F & M).
  - intros n Hn. exact Hn.
  - match goal with |- NoDup ?L => assert (HN : nodup (list_eq_dec Z.eq_dec) L = L) by (vm_compute; reflexivity) end. rewrite <- HN. apply NoDup_nodup.
  - intros n Hn. split; [|intros []]. cbn in Hn. repeat destruct Hn as [<-|Hn]; [reflexivity..|destruct Hn].
  - intros e He. cbn in He. repeat destruct He as [<-|He]; [discriminate..|destruct He].
  - unfold zlen. rewrite Nat2Z.id, nth_error_app2, Nat.sub_diag by lia. reflexivity.
  - apply flds_new.
  - exists sm', t, L. unfold new_swarm. cbn [s_heap set_tabs]. unfold set_tabs. cbn [s_glob s_str s_ext s_heap]. rewrite E. cbn [obind]. rewrite new_upd. auto.
Qed.
Lemma swarm_fields sm t L (h : list table) id : flds sm t L ->
  Forall2 (fun e f => f_name f = bs (fst e) /\ f_val f = bind_self (OTab (zlen h)) (snd e)) (swarm_members fid id) L ->
  zlen (pentries t) = 7 /\ field sm t "id" (OInt id) /\
  forall n, In n ["others"; "join"; "leave"; "in"; "select"; "exec"]%string -> field sm t n (OClos false (sign32 (fid ("buzzswarm_" ++ n)%string)) [OTab (zlen h)]).
Proof.
  intros HF HM.
  assert (HG : forall n o, In (n, o) (swarm_members fid id) -> field sm t n (bind_self (OTab (zlen h)) o)).
  { intros n o Hn. assert (HX : exists f, In f L /\ f_name f = bs n /\ f_val f = bind_self (OTab (zlen h)) o).
    { clear HF. revert Hn. induction HM as [|e f l l' [H1 H2] HM IH]; [intros []|]. intros [->|Hn]; [exists f; split; [left; reflexivity|auto]|].
      destruct (IH Hn) as (g & G1 & G2). exists g. split; [right; exact G1|exact G2]. }
    destruct HX as (f & F1 & F2 & F3). pose proof (fl_ok _ _ _ HF) as HO. rewrite Forall_forall in HO. destruct (HO f F1) as (A & B & _).
    exists (f_id f). split; [exact A|]. rewrite <- F2, <- F3. split; [exact B|]. apply (flds_get sm t L f HF F1). }
  split; [|split].
  - rewrite (flds_size sm L t HF). unfold zlen. rewrite <- (@Forall2_length _ _ _ _ _ HM). reflexivity.
  - refine (HG _ (OInt id) _). cbn. tauto.
  - intros n Hn. refine (HG n (OClos false _ [ONil]) _). unfold swarm_members. apply in_or_app. left. apply in_map_iff. exists n. split; [reflexivity|exact Hn].
Qed.

Hypothesis sw_put : forall x s, sw (put_sw x s) = s.
Lemma gives_ok st0 st s r : room_for names7 (s_str st) -> s_glob st = s_glob st0 -> s_heap st = s_heap st0 -> keeps_strings (s_str st0) (s_str st) -> (forall id, r = SSwarm id -> id = id mod 65536) ->
  match r with
  | SErr => gives fid put_sw (Ok (s, r)) st = Fail E_SWARM
  | _ => exists o st', gives fid put_sw (Ok (s, r)) st = Done (o, st') /\ sw (s_ext st') = s /\ returned fid r st0 o st'
  end.
Proof.
  intros HR HG HH HK Hid. assert (HS : forall st1 : sst, room_for names7 (s_str st1) -> exists ops outs, sm_run sm_new ops = Ok (s_str st1, outs) /\ smhist_ok sm_new ops) by (intros st1 [Q _]; exact Q).
  destruct r as [| |z|id]; unfold gives.
  - reflexivity.
  - exists ONil, (set_exts st (put_sw (s_ext st) s)). split; [reflexivity|]. split; [apply sw_put|]. repeat split; auto.
  - exists (OInt z), (set_exts st (put_sw (s_ext st) s)). split; [reflexivity|]. split; [apply sw_put|]. repeat split; auto.
  - destruct (new_swarm_ok (set_exts st (put_sw (s_ext st) s)) (s_str st) (s_heap st) id HR) as (sm' & t & L & E & K & R & F & M).
    unfold set_exts in *. cbn [s_glob s_ext] in E. rewrite E.
    destruct (swarm_fields sm' t L (s_heap st) id F M) as (F1 & F2 & F3). eexists. eexists. split; [reflexivity|]. split; [apply sw_put|].
    rewrite HH in *. split; [exact HG|]. split; [eapply keeps_strings_trans; eauto|]. split; [destruct R as [Q _]; exact Q|]. split; [reflexivity|]. split.
    + exists (zlen (s_heap st0)), t, id. split; [reflexivity|]. split; [unfold zlen; lia|]. split; [|split; [exact F2|apply Hid; reflexivity]].
      cbn [s_heap set_exts]. unfold zlen. rewrite Nat2Z.id, nth_error_app2, Nat.sub_diag by lia. reflexivity.
    + exists t. auto.
Qed.
(** The id of a swarm, from its table. *)
Lemma id_of_ok names st self id k : In "id"%string names -> room_for names (s_str st) -> has_id st self id ->
  exists sm, swarm_id_of self st k = k id (set_strs st sm) /\ room_for names sm /\ keeps_strings (s_str st) sm.
Proof.
  intros Hin HR (a & t & z & -> & Ha & Ht & (i & Hi & Hg & HT) & ->).
  destruct (new_name_room names st "id" HR Hin) as (sm & j & E & Hj & Gj & HK & HR1 & HU).
  exists sm. split; [|auto]. unfold swarm_id_of. rewrite E. cbn [obind]. rewrite <- (HU i Hi Hg). unfold get_val. cbn [is_key set_strs s_heap]. unfold table_at. rewrite Ht, (proj2 (Z.leb_le 0 a) Ha). cbn [obind]. rewrite HT. reflexivity.
Qed.
Lemma member_ok st x id k : room_for names7 (s_str st) -> has_id st x id ->
  exists sm z, swarm_member x st k = k z (set_strs st sm) /\ id = z mod 65536 /\ room_for names7 sm /\ keeps_strings (s_str st) sm.
Proof.
  intros HR (a & t & z & -> & Ha & Ht & (i & Hi & Hg & HT) & ->).
  destruct (new_name_room names7 st "id" HR) as (sm & j & E & Hj & Gj & HK & HR1 & HU); [cbn; tauto|].
  exists sm, z. split; [|auto]. unfold swarm_member. rewrite E. cbn [obind]. rewrite <- (HU i Hi Hg). unfold get_val. cbn [is_key set_strs s_heap]. unfold table_at. rewrite Ht, (proj2 (Z.leb_le 0 a) Ha). cbn [obind]. rewrite HT. reflexivity.
Qed.
Lemma has_id_strs st x id sm : keeps_strings (s_str st) sm -> has_id st x id -> has_id (set_strs st sm) x id.
Proof.
  intros HK (a & t & z & -> & Ha & Ht & (i & Hi & Hg & HT) & ->). exists a, t, z. split; [reflexivity|]. split; [exact Ha|]. split; [exact Ht|]. split; [|reflexivity]. exists i. auto.
Qed.

Variable c : clib.
Lemma cfun_of n m : In (n, m) (swarm_meanings fid sw put_sw) -> NoDup (map (fun e => fid (fst e)) (swarm_meanings fid sw put_sw ++ std_meanings c)) ->
  forall args st, lib_cfun fid sw put_sw c (fid n) args st = m args st.
Proof. intros Hn HN args st. unfold lib_cfun. rewrite (found_in fid _ n m HN); [reflexivity|]. apply in_or_app. left. exact Hn. Qed.
Lemma wrap16_mod z : wrap16 (z mod 65536) = wrap16 z.
Proof. unfold wrap16. change (2 ^ 16) with 65536. apply Z.mod_mod. lia. Qed.
Lemma check_mod s z : swarm_check s (z mod 65536) = swarm_check s z.
Proof. unfold swarm_check. rewrite wrap16_mod. reflexivity. Qed.
Lemma mod16 z : (z mod 65536) mod 65536 = z mod 65536.
Proof. apply Z.mod_mod. lia. Qed.
Lemma setop_mod f s z a b : swarm_setop f s (z mod 65536) (a mod 65536) (b mod 65536) = swarm_setop f s z a b.
Proof. unfold swarm_setop. rewrite wrap16_mod, !check_mod. reflexivity. Qed.
Lemma create_mod s z : swarm_create s (z mod 65536) = swarm_create s z.
Proof. unfold swarm_create. rewrite wrap16_mod. reflexivity. Qed.
Lemma others_mod s i z : swarm_others s i (z mod 65536) = swarm_others s i z.
Proof. unfold swarm_others. rewrite wrap16_mod. reflexivity. Qed.

(** A call is its operation. *)
Definition does st (name : string) args (op : swop) : Prop :=
  forall s x, sw_step (sw (s_ext st)) op = Ok (s, x, []) ->
  match x with
  | SErr => lib_cfun fid sw put_sw c (fid name) args st = Fail E_SWARM
  | _ => exists o st', lib_cfun fid sw put_sw c (fid name) args st = Done (o, st') /\ sw (s_ext st') = s /\ returned fid x st o st'
  end.
Lemma step_swarm (r : res (swst * sres)) s x : ('(s', r) <- r ;; Ok (s', r, @nil omsg)) = Ok (s, x, []) -> r = Ok (s, x).
Proof. destruct r as [[a b]| | |]; cbn [bind]; intro H; inversion H; reflexivity. Qed.
Lemma mod_range z : z = z mod 65536 <-> 0 <= z < 65536.
Proof. split; [intros ->; apply Z.mod_pos_bound; lia|intro H; symmetry; apply Z.mod_small; exact H]. Qed.
Lemma swarm_result op s s' id : sw_step s op = Ok (s', SSwarm id, []) -> id = id mod 65536.
Proof.
  assert (H : forall z, wrap16 z = wrap16 z mod 65536). { intro z. apply mod_range. unfold wrap16. change (2 ^ 16) with 65536. apply Z.mod_pos_bound. lia. }
  destruct op; cbn [sw_step]; intro E; try apply step_swarm in E.
  - unfold swarm_create in E. destruct (sw_get _ _); inversion E; apply H.
  - unfold swarm_join in E. destruct (sw_get _ _); [|discriminate]. destruct (sw_announce _ _ _); discriminate.
  - unfold swarm_leave in E. destruct (sw_get _ _); [|discriminate]. destruct (sw_announce _ _ _); discriminate.
  - unfold swarm_select in E. destruct (sw_get _ _); [|discriminate]. destruct (sw_announce _ _ _); discriminate.
  - unfold swarm_in in E. destruct (sw_get _ _); discriminate.
  - unfold swarm_others in E. destruct (sw_get _ _) as [y|]; [|discriminate]. apply bind_ok in E as (s2 & _ & E). inversion E. apply H.
  - unfold swarm_union, swarm_setop in E. apply bind_ok in E as (s2 & _ & E). inversion E. apply H.
  - unfold swarm_intersection, swarm_setop in E. apply bind_ok in E as (s2 & _ & E). inversion E. apply H.
  - unfold swarm_difference, swarm_setop in E. apply bind_ok in E as (s2 & _ & E). inversion E. apply H.
  - destruct (oq_next _); discriminate.
  - discriminate.
Qed.
Lemma in7 : In "id"%string names7. Proof. cbn. tauto. Qed.
Lemma call_does st name args op : NoDup (map (fun e => fid (fst e)) (swarm_meanings fid sw put_sw ++ std_meanings c)) -> room_for names7 (s_str st) ->
  swarm_call st name args op -> does st name args op.
Proof.
  intros HN HR HC s x HS. pose proof (fun id E => swarm_result op _ s id (eq_trans HS (f_equal (fun x => Ok (s, x, [])) E))) as Hid.
  assert (HF : forall m, In (name, m) (swarm_meanings fid sw put_sw) ->
    match x with SErr => m args st = Fail E_SWARM | _ => exists o st', m args st = Done (o, st') /\ sw (s_ext st') = s /\ returned fid x st o st' end ->
    match x with SErr => lib_cfun fid sw put_sw c (fid name) args st = Fail E_SWARM
    | _ => exists o st', lib_cfun fid sw put_sw c (fid name) args st = Done (o, st') /\ sw (s_ext st') = s /\ returned fid x st o st' end).
  { intros m Hm. rewrite (cfun_of name m Hm HN). auto. }
  assert (HE : forall st1 : sst, s_ext st1 = s_ext st -> s_glob st1 = s_glob st -> s_heap st1 = s_heap st -> keeps_strings (s_str st) (s_str st1) -> room_for names7 (s_str st1) -> forall r (m : list obj -> sst -> out (obj * sst)) args,
    r = Ok (s, x) -> m args st = gives fid put_sw r st1 ->
    match x with SErr => m args st = Fail E_SWARM | _ => exists o st', m args st = Done (o, st') /\ sw (s_ext st') = s /\ returned fid x st o st' end).
  { intros st1 _ E2 E3 E4 E5 r m args0 -> ->. exact (gives_ok st st1 s x E5 E2 E3 E4 Hid). }
  inversion HC; subst; cbn [sw_step] in HS; apply step_swarm in HS.
  - apply (HF _ (or_introl eq_refl)). rewrite create_mod in HS.
    eapply (HE st eq_refl eq_refl eq_refl (keeps_strings_refl _) HR _ _ _ HS). reflexivity.
  - eapply HF; [do 5 right; left; reflexivity|]. destruct (id_of_ok names7 st o id (fun id st => gives fid put_sw (swarm_join (sw (s_ext st)) id) st) in7 HR H) as (sm & E & R & K).
    eapply (HE (set_strs st sm) eq_refl eq_refl eq_refl K R _ _ _ HS). exact E.
  - eapply HF; [do 6 right; left; reflexivity|]. destruct (id_of_ok names7 st o id (fun id st => gives fid put_sw (swarm_leave (sw (s_ext st)) id) st) in7 HR H) as (sm & E & R & K).
    eapply (HE (set_strs st sm) eq_refl eq_refl eq_refl K R _ _ _ HS). exact E.
  - eapply HF; [do 7 right; left; reflexivity|]. destruct (id_of_ok names7 st o id (fun id st => gives fid put_sw (swarm_in (sw (s_ext st)) id) st) in7 HR H) as (sm & E & R & K).
    eapply (HE (set_strs st sm) eq_refl eq_refl eq_refl K R _ _ _ HS). exact E.
  - eapply HF; [do 8 right; left; reflexivity|]. destruct (id_of_ok names7 st o id (fun id st => gives fid put_sw (swarm_select (sw (s_ext st)) id c0) st) in7 HR H) as (sm & E & R & K).
    eapply (HE (set_strs st sm) eq_refl eq_refl eq_refl K R _ _ _ HS). exact E.
  - eapply HF; [do 4 right; left; reflexivity|]. rewrite others_mod in HS.
    destruct (id_of_ok names7 st o id (fun id st => match sw_get (sw (s_ext st)) id with None => Fail E_SWARM | Some _ => gives fid put_sw (swarm_others (sw (s_ext st)) id z) st end) in7 HR H) as (sm & E & R & K).
    cbn [set_strs s_ext] in E. destruct (sw_get (sw (s_ext st)) id) eqn:EG.
    + eapply (HE (set_strs st sm) eq_refl eq_refl eq_refl K R _ _ _ HS). exact E.
    + destruct H as (a & t & z0 & _ & _ & _ & _ & ->). unfold swarm_others in HS. rewrite wrap16_mod in HS. change (wrap16 z0) with (z0 mod 65536) in HS. rewrite EG in HS. inversion HS; subst. exact E.
  - eapply HF; [right; left; reflexivity|]. destruct (member_ok st x0 a (fun a st => swarm_member y st (fun b st => gives fid put_sw (swarm_union (sw (s_ext st)) z a b) st)) HR H) as (sm & za & E & -> & R & K).
    destruct (member_ok (set_strs st sm) y b (fun b st => gives fid put_sw (swarm_union (sw (s_ext st)) z za b) st) R (has_id_strs _ _ _ _ K H0)) as (sm2 & zb & E2 & -> & R2 & K2).
    unfold swarm_union in HS. rewrite setop_mod in HS. eapply (HE (set_strs st sm2) eq_refl eq_refl eq_refl (keeps_strings_trans _ _ _ K K2) R2 _ _ _ HS). exact (eq_trans E E2).
  - eapply HF; [do 2 right; left; reflexivity|]. destruct (member_ok st x0 a (fun a st => swarm_member y st (fun b st => gives fid put_sw (swarm_intersection (sw (s_ext st)) z a b) st)) HR H) as (sm & za & E & -> & R & K).
    destruct (member_ok (set_strs st sm) y b (fun b st => gives fid put_sw (swarm_intersection (sw (s_ext st)) z za b) st) R (has_id_strs _ _ _ _ K H0)) as (sm2 & zb & E2 & -> & R2 & K2).
    unfold swarm_intersection in HS. rewrite setop_mod in HS. eapply (HE (set_strs st sm2) eq_refl eq_refl eq_refl (keeps_strings_trans _ _ _ K K2) R2 _ _ _ HS). exact (eq_trans E E2).
  - eapply HF; [do 3 right; left; reflexivity|]. destruct (member_ok st x0 a (fun a st => swarm_member y st (fun b st => gives fid put_sw (swarm_difference (sw (s_ext st)) z a b) st)) HR H) as (sm & za & E & -> & R & K).
    destruct (member_ok (set_strs st sm) y b (fun b st => gives fid put_sw (swarm_difference (sw (s_ext st)) z za b) st) R (has_id_strs _ _ _ _ K H0)) as (sm2 & zb & E2 & -> & R2 & K2).
    unfold swarm_difference in HS. rewrite setop_mod in HS. eapply (HE (set_strs st sm2) eq_refl eq_refl eq_refl (keeps_strings_trans _ _ _ K K2) R2 _ _ _ HS). exact (eq_trans E E2).
Qed.
End Calls.

(** ** C116 *)
(** The robot has created, joined, left ... swarms, sent messages and announced its swarms, in any order [ops]; a script
    calls a function on swarms, which stands for the operation [op].  The call fails exactly when the operation does, with
    the error of swarms; otherwise it gives what the specification of memberships says: nothing, 0 or 1, or a new table
    that is the swarm, with its methods; and what the robot holds is what it holds after [ops] and [op], so that C32, C33 and
    C57 say what it is member of and what it announces. *)
Theorem C116_swarm_calls :
  forall X (sw : X -> swst) put_sw c fid u ops rs ms name args (st : sst X) op,
  (forall x s, sw (put_sw x s) = s) -> NoDup (map (fun e => fid (fst e)) (swarm_list (X := X) fid sw put_sw ++ std_list c)) ->
  0 <= u < 65536 -> Forall (swop_ok u) ops -> sw_run sw_new ops = Ok (sw (s_ext st), rs, ms) ->
  strings_ok (s_str st) -> sm_live (s_str st) + 7 < 65534 ->
  swarm_call st name args op -> swop_ok u op ->
  exists x, sres_ok (memb_run ops) op x /\
    match x with
    | SErr => lib_cfun fid sw put_sw c (fid name) args st = Fail E_SWARM
    | _ => exists o st', lib_cfun fid sw put_sw c (fid name) args st = Done (o, st') /\ returned fid x st o st' /\
             sw_run sw_new (ops ++ [op]) = Ok (sw (s_ext st'), rs ++ [x], ms)
    end.
Proof.
  intros X sw put_sw c fid u ops rs ms name args st op HP HN Hu HO HR HS HL HC Hop.
  destruct (sw_run_ok u Hu ops sw_new _ (swinv_new u) HO) as (s0 & rs0 & ms0 & oo & outs & E & I & _). rewrite HR in E. inversion E; subst s0 rs0 ms0.
  destruct (swinv_step u Hu _ _ op I Hop) as (s' & x & ms' & _ & _ & ES & _ & HX & _).
  assert (ms' = []) as ->.
  { inversion HC; subst; cbn [sw_step] in ES; match type of ES with (bind ?r _ = _) => destruct r as [[? ?]| | |]; inversion ES; reflexivity end. }
  assert (HN' : NoDup (map (fun e => fid (fst e)) (swarm_meanings fid sw put_sw ++ std_meanings (X := X) c))) by exact HN.
  assert (HRm : room_for names7 (s_str st)) by (apply room_live; [exact HS|exact HL]).
  pose proof (call_does fid sw put_sw HP c st name args op HN' HRm HC s' x ES) as HD. exists x. split; [exact HX|].
  assert (HA : forall a s1 r1 m1, sw_run s1 ops = Ok (a, r1, m1) -> sw_step a op = Ok (s', x, []) -> sw_run s1 (ops ++ [op]) = Ok (s', r1 ++ [x], m1)).
  { clear. induction ops as [|o ops IH]; intros a s1 r1 m1 H1 H2; cbn [sw_run app] in *.
    - inversion H1; subst. rewrite H2. reflexivity.
    - destruct (sw_step s1 o) as [[[s2 r] m]| | |]; cbn [bind] in *; try discriminate. destruct (sw_run s2 ops) as [[[s3 r3] m3]| | |] eqn:E3; cbn [bind] in H1; inversion H1; subst.
      rewrite (IH a s2 _ _ E3 H2). reflexivity. }
  destruct x; [exact HD| | |]; destruct HD as (o & st' & D1 & D2 & D3); exists o, st'; rewrite D2; repeat (split; [assumption|]); eapply HA; eauto.
Qed.
Print Assumptions C116_swarm_calls.

(** ** C117 *)
Section Keep.
Context {X : Type}.
Variable P : X -> Prop.
Variable c : clib.
Notation sst := (sst X).
Implicit Types st : sst.
Definition holds_of (_ : strman) (x : X) : Prop := P x.
Notation keep := (kp (X := X) holds_of).
Notation keeps := (kp_out (X := X) holds_of).
Lemma kp_strs st sm : keep st -> keep (set_strs st sm). Proof. intro H. exact H. Qed.
Lemma kp_string st t : keep st -> keeps (new_string st t).
Proof.
  intro K. unfold new_string. destruct (_ <? _); [|exact Logic.I]. destruct (sm_register _ _ _ _) as [[sm i]| | |]; try exact Logic.I. exact K.
Qed.
Lemma kp_name st t : keep st -> keeps (new_name st t).
Proof.
  intro K. unfold new_name. destruct (_ <? _); [|exact Logic.I]. destruct (sm_register _ _ _ _) as [[sm i]| | |]; try exact Logic.I. exact K.
Qed.
Lemma kp_members t : forall l st, keep st -> outs keep (new_members t l st).
Proof.
  induction l as [|[n o] l IH]; intros st K; [exact K|]. cbn [new_members]. eapply outs_bind; [apply kp_name; exact K|]. intros [k st1] K1. cbn [snd] in K1.
  eapply outs_bind; [apply kp_put; exact K1|]. intros st2 K2. apply IH. exact K2.
Qed.
Lemma kp_id self st k : keep st -> (forall id st, keep st -> keeps (k id st)) -> keeps (swarm_id_of self st k).
Proof. intros K H. unfold swarm_id_of. eapply outs_bind; [apply kp_name; exact K|]. intros [n st1] K1. destruct (get_val st1 self n) as [[]| | |]; try exact Logic.I. apply H. exact K1. Qed.
Lemma kp_member x st k : keep st -> (forall z st, keep st -> keeps (k z st)) -> keeps (swarm_member x st k).
Proof.
  intros K H. unfold swarm_member. destruct x; try exact Logic.I. eapply outs_bind; [apply kp_name; exact K|]. intros [n st1] K1. destruct (get_val st1 _ n) as [[]| | |]; try exact Logic.I. apply H. exact K1.
Qed.
Lemma kp_number oni onf args st : keep st -> keeps (number oni onf args st).
Proof.
  intro K. unfold number, one_arg. destruct args as [|s [|x [|? ?]]]; try exact Logic.I. destruct (match x with OInt i => oni i | OFloat f => onf f | _ => Fail E_TYPE end); try exact Logic.I. exact K.
Qed.
Lemma kp_int x k : (forall z, keeps (k z)) -> keeps (an_int x k).
Proof. intro H. destruct x; try exact Logic.I. apply H. Qed.
Ltac kp_auto K :=
  repeat match goal with
  | |- keeps (Done _) => exact K
  | |- keeps (Fail _) => exact Logic.I
  | |- keeps Unspec => exact Logic.I
  | |- keeps More => exact Logic.I
  | |- keeps (new_string _ _) => apply kp_string; exact K
  | |- keeps (obind ?o _) => destruct o; cbn [obind]
  | |- keeps (match ?x with _ => _ end) => destruct x
  end.
Lemma kp_std e : In e (std_meanings c) -> forall args st, keep st -> keeps (snd e args st).
Proof.
  intros He args st K. unfold std_meanings in He. apply in_app_or in He as [He|He]; [|apply in_map_iff in He as (n & <- & _); apply kp_number; exact K].
  cbn [In] in He. repeat destruct He as [<-|He]; [..|destruct He]; cbn [snd].
  all: match goal with
  | |- keeps (number _ _ _ _) => apply kp_number; exact K
  | |- keeps (string_cfun _ _ _) => unfold string_cfun; cbv iota
  | _ => unfold tostring, toint, tofloat, atan, is_a, pick; unfold one_arg, two_args; cbv beta; try unfold size_of
  end.
  all: kp_auto K.
Qed.
End Keep.
Section Whole.
Context {X : Type}.
Variable fid : string -> Z.
Variable sw : X -> swst.
Variable put_sw : X -> swst -> X.
Variable c : clib.
Hypothesis sw_put : forall x s, sw (put_sw x s) = s.
Notation sst := (sst X).
Implicit Types st : sst.
Variable x0 : X.
Definition after_x (x : X) : Prop := exists ops rs, Forall of_script ops /\ sw_run (sw x0) ops = Ok (sw x, rs, []).
Notation after := (holds_of after_x).
Notation keep := (kp (X := X) after).
Notation keeps := (kp_out (X := X) after).
Lemma kp_gives op st : of_script op -> keep st -> keeps (gives fid put_sw ('(s, x, _) <- sw_step (sw (s_ext st)) op ;; Ok (s, x)) st).
Proof.
  intros Ho (ops & rs & HF & HR). destruct (sw_step (sw (s_ext st)) op) as [[[s x] ms]| | |] eqn:E; cbn [bind]; try exact Logic.I.
  assert (ms = []) as ->. { destruct op; try destruct Ho; cbn [sw_step] in E; match type of E with (bind ?r _ = _) => destruct r as [[? ?]| | |]; inversion E; reflexivity end. }
  assert (HA : forall s1 r1, sw_run s1 ops = Ok (sw (s_ext st), r1, []) -> sw_run s1 (ops ++ [op]) = Ok (s, r1 ++ [x], [])).
  { clear HF HR rs. induction ops as [|o ops IH]; intros s1 r1 H1; cbn [sw_run app] in *.
    - inversion H1; subst. rewrite E. reflexivity.
    - destruct (sw_step s1 o) as [[[s2 r] m]| | |]; cbn [bind] in *; try discriminate. destruct (sw_run s2 ops) as [[[s3 r3] m3]| | |] eqn:E3; cbn [bind] in H1; [|discriminate..].
      injection H1 as -> <- H1. apply app_eq_nil in H1 as [-> ->]. rewrite (IH s2 _ E3). reflexivity. }
  assert (K : keep (set_exts st (put_sw (s_ext st) s))).
  { exists (ops ++ [op]), (rs ++ [x]). split; [apply Forall_app; auto|]. cbn [set_exts s_ext s_str]. rewrite sw_put. apply HA. exact HR. }
  unfold gives. destruct x as [| |z|id]; try exact Logic.I; try exact K.
  unfold new_swarm. eapply outs_bind; [apply kp_members; exact K|]. intros st2 K2. exact K2.
Qed.
Lemma kp_gives' op r st : of_script op -> sw_step (sw (s_ext st)) op = ('(s, x) <- r ;; Ok (s, x, [])) -> keep st -> keeps (gives fid put_sw r st).
Proof. intros Ho E K. pose proof (kp_gives op st Ho K) as H. rewrite E in H. destruct r as [[s x]| | |]; exact H. Qed.
Lemma kp_create args st : keep st -> keeps (sem_create fid sw put_sw args st).
Proof.
  intro K. destruct args as [|s [|x [|? ?]]]; try exact Logic.I. apply kp_int. intro z. apply (kp_gives' (SCreate z)); [exact Logic.I|reflexivity|exact K].
Qed.
Lemma kp_method0 op f args st : (forall id, of_script (op id)) -> (forall s id, sw_step s (op id) = ('(s, x) <- f s id ;; Ok (s, x, []))) -> keep st -> keeps (sem_method0 fid sw put_sw f args st).
Proof.
  intros H1 H2 K. destruct args as [|s [|? ?]]; try exact Logic.I. apply kp_id; [exact K|]. intros id st1 K1. apply (kp_gives' (op id)); [apply H1|apply H2|exact K1].
Qed.
Lemma kp_others args st : keep st -> keeps (sem_others fid sw put_sw args st).
Proof.
  intro K. destruct args as [|s [|x [|? ?]]]; try exact Logic.I. apply kp_id; [exact K|]. intros id st1 K1. destruct (sw_get _ _) as [y|]; [|exact Logic.I]. apply kp_int. intro z.
  apply (kp_gives' (SOthers id z)); [exact Logic.I|reflexivity|exact K1].
Qed.
Lemma kp_select args st : keep st -> keeps (sem_select fid sw put_sw args st).
Proof.
  intro K. destruct args as [|s [|x [|? ?]]]; try exact Logic.I. apply kp_id; [exact K|]. intros id st1 K1. apply kp_int. intro z. apply (kp_gives' (SSelect id z)); [exact Logic.I|reflexivity|exact K1].
Qed.
Lemma kp_setop op f args st : (forall z a b, of_script (op z a b)) -> (forall s z a b, sw_step s (op z a b) = ('(s, x) <- f s z a b ;; Ok (s, x, []))) -> keep st -> keeps (sem_setop fid sw put_sw f args st).
Proof.
  intros H1 H2 K. destruct args as [|s [|i [|x [|y [|? ?]]]]]; try exact Logic.I. apply kp_int. intro z. apply kp_member; [exact K|]. intros a st1 K1. apply kp_member; [exact K1|]. intros b st2 K2.
  apply (kp_gives' (op z a b)); [apply H1|apply H2|exact K2].
Qed.
Lemma kp_lib e : In e (swarm_meanings fid sw put_sw ++ std_meanings c) -> forall args st, keep st -> keeps (snd e args st).
Proof.
  intros He args st K. apply in_app_or in He as [He|He]; [|eapply kp_std; eassumption].
  cbn [swarm_meanings In] in He. repeat destruct He as [<-|He]; [..|destruct He]; cbn [snd].
  - apply kp_create; exact K.
  - apply (kp_setop SUnion); [exact (fun _ _ _ => Logic.I)|reflexivity|exact K].
  - apply (kp_setop SInter); [exact (fun _ _ _ => Logic.I)|reflexivity|exact K].
  - apply (kp_setop SDiff); [exact (fun _ _ _ => Logic.I)|reflexivity|exact K].
  - apply kp_others; exact K.
  - apply (kp_method0 SJoin); [exact (fun _ => Logic.I)|reflexivity|exact K].
  - apply (kp_method0 SLeave); [exact (fun _ => Logic.I)|reflexivity|exact K].
  - apply (kp_method0 SIn); [exact (fun _ => Logic.I)|reflexivity|exact K].
  - apply kp_select; exact K.
Qed.
Lemma kp_cfun i args st : keep st -> keeps (lib_cfun fid sw put_sw c i args st).
Proof. intro K. unfold lib_cfun. destruct (find _ _) as [e|] eqn:E; [|exact Logic.I]. apply find_some in E as [E _]. apply kp_lib; assumption. Qed.
End Whole.

(** Whatever a script does, with the library and the functions on swarms, when it ends the robot holds what it holds after some
    sequence of operations on swarms. *)
Theorem C117_scripts_are_swarm_operations :
  forall X (sw : X -> swst) put_sw c fid strtof powf sid ref fs n l (st st' : sst X),
  (forall x s, sw (put_sw x s) = s) -> run strtof powf sid ref fs (lib_cfun fid sw put_sw c) n l st = Done st' ->
  exists ops rs, Forall of_script ops /\ sw_run (sw (s_ext st)) ops = Ok (sw (s_ext st'), rs, []).
Proof.
  intros X sw put_sw c fid strtof powf sid ref fs n l st st' HP HR.
  pose proof (kp_run strtof powf sid ref fs (lib_cfun fid sw put_sw c) (holds_of (after_x sw (s_ext st))) (kp_cfun fid sw put_sw c HP (s_ext st)) n l st) as H.
  rewrite HR in H. apply H. exists [], []. split; [constructor|reflexivity].
Qed.
Print Assumptions C117_scripts_are_swarm_operations.

(** ** A script on swarms *)
Definition sw_self : swst -> swst := fun s => s.
Definition sw_put_self : swst -> swst -> swst := fun _ s => s.
Definition sw_names : list string := map fst (swarm_list (fun _ => 0) sw_self sw_put_self ++ std_list (X := swst) demo_c).
Definition sw_fid (n : string) : Z := position n sw_names.
Definition sw_flist : list (vm swst -> res (vm swst)) := map snd (swarm_list sw_fid sw_self sw_put_self ++ std_list demo_c).
Definition one_file (t : str) (name : list Z) : option (list Z * list Z) := if list_eq_dec Z.eq_dec name (bs "main") then Some (bs "/main", t) else None.
Definition sw_files := one_file (bs "s = swarm.create(1)
s.join()
t = swarm.create(65538)
t.select(s.in())
o = t.others(3)
u = swarm.union(4, o, s)
s.leave()
a = s.in()
b = o.in()
c = u.in()
i = t.id").
Definition sw_script : stats := got_script (script_of no_strtof_ sw_files 900 (bs "main")).
Definition sw_asm : list Z := got_asm (bzzparse sw_files 1500 [] (bs "main")).
Definition sw_code : list Z := got_code (buzz_asm no_strtof_ sw_asm).
Definition sw_loaded : res (vm swst * vstat) := load_all sw_fid sw_flist no_powf sw_code 12 60 (vm_new sw_new).
Definition loaded (r : res (vm swst * vstat)) : vm swst := match r with Ok (v, _) => v | _ => vm_new sw_new end.
Definition sw_vm : vm swst := loaded sw_loaded.
Definition name_id {X} (v : vm X) (t : str) : Z := got_id (s2i_get (str2id (v_str v)) t).
Definition glob_of {X} (v : vm X) (w : vm X) (t : str) : obj := got_obj (gsym_get (v_gsyms w) (name_id v t)).
Definition sw_end (g : str -> obj) (s : swst) : Prop :=
  g (bs "a") = OInt 0 /\ g (bs "b") = OInt 0 /\ g (bs "c") = OInt 1 /\ g (bs "i") = OInt 2 /\
  sw_run sw_new [SCreate 1; SJoin 1; SCreate 2; SIn 1; SSelect 2 1; SOthers 2 3; SUnion 4 3 1; SLeave 1; SIn 1; SIn 3; SIn 4] =
    Ok (s, [SSwarm 1; SNone; SSwarm 2; SInt 1; SNone; SSwarm 3; SSwarm 4; SNone; SInt 0; SInt 0; SInt 1], []).
Lemma registered_at {A} (l : list (string * A)) n f : NoDup (map fst l) -> In (n, f) l ->
  0 <= position n (map fst l) < zlen l /\ nth_error (map snd l) (Z.to_nat (position n (map fst l))) = Some f.
Proof.
  induction l as [|[m g] l IH]; intros HN H; [destruct H|]. cbn [map fst snd position]. inversion HN as [|? ? N1 N2]; subst. destruct (String.eqb m n) eqn:E.
  - apply String.eqb_eq in E. subst m. destruct H as [H|H]; [injection H as ->; split; [unfold zlen; cbn [length]; lia|reflexivity]|]. destruct N1. apply in_map_iff. exists (n, f). auto.
  - destruct H as [H|H]; [injection H as -> ->; rewrite String.eqb_refl in E; discriminate|]. destruct (IH N2 H) as [P1 P2]. split; [unfold zlen in *; cbn [length]; lia|].
    replace (Z.to_nat _) with (S (Z.to_nat (position n (map fst l)))) by lia. exact P2.
Qed.
Lemma sw_registered : lib_registered sw_fid sw_self sw_put_self demo_c sw_flist.
Proof.
  intros n f H. assert (ND : NoDup sw_names). { apply distinct_names_ok. vm_compute. reflexivity. }
  assert (HE : map fst (swarm_list sw_fid sw_self sw_put_self ++ std_list demo_c) = sw_names) by (vm_compute; reflexivity).
  assert (HZ : zlen (swarm_list sw_fid sw_self sw_put_self ++ std_list demo_c) = 43) by reflexivity.
  unfold sw_flist. set (l := swarm_list sw_fid sw_self sw_put_self ++ std_list demo_c) in *. clearbody l. unfold sw_fid at 1 2. rewrite <- HE in *.
  destruct (registered_at l n f ND H) as [P1 P2]. unfold sw_fid. rewrite <- HE. split; [lia|exact P2].
Qed.
Example C115_C117_case :
  holds_script no_strtof_ sw_files (bs "main") sw_script /\ zlen sw_asm < 2 ^ 31 /\ sw_code <> [] /\ lib_registered sw_fid sw_self sw_put_self demo_c sw_flist /\
  (forall x s, sw_self (sw_put_self x s) = s) /\
  sm_live (v_str sw_vm) < 65534 /\ ok_with (fun r => snd r = S_READY) sw_loaded /\
  done_with (fun st => sw_end (s_glob st) (s_ext st))
    (run no_strtof_ no_powf (name_id sw_vm) (fun i => i) (functions sw_script) (lib_cfun sw_fid sw_self sw_put_self demo_c) 3 sw_script (mkSt (glob_of sw_vm sw_vm) (v_heap sw_vm) (v_str sw_vm) sw_new)) /\
  ok_with (fun w => v_state w = S_DONE /\ sw_end (glob_of sw_vm w) (v_ext w)) (execute_script sw_flist no_powf (byte sw_code) (zlen sw_code) 2000 sw_vm).
Proof.
  split; [apply (script_of_ok _ _ 900); vm_compute; reflexivity|]. split; [vm_compute; reflexivity|]. split; [vm_compute; discriminate|]. split; [exact sw_registered|]. split; [reflexivity|].
  split; [vm_compute; reflexivity|]. split; [vm_compute; reflexivity|]. split; vm_compute; repeat split.
Qed.

(** ** C116 on a state: the robot has created swarm 1 and joined it; a script calls in() on its table. *)
Definition one_key : strman * Z := match sm_register sm_fuel sm_new (bs "id") true with Ok r => r | _ => (sm_new, 0) end.
Definition one_table : table := match tab_set tab_new (OStr (snd one_key) (bs "id")) (OInt 65537) with Ok t => t | _ => tab_new end.
Definition joined : swst := match sw_run sw_new [SCreate 1; SJoin 1] with Ok (s, _, _) => s | _ => sw_new end.
Definition st_one : sst swst := mkSt (fun _ => ONil) [one_table] (fst one_key) joined.
Example C116_case :
  NoDup (map (fun e => sw_fid (fst e)) (swarm_list sw_fid sw_self sw_put_self ++ std_list demo_c)) /\
  Forall (swop_ok 0) [SCreate 1; SJoin 1] /\ sw_run sw_new [SCreate 1; SJoin 1] = Ok (s_ext st_one, [SSwarm 1; SNone], []) /\
  strings_ok (s_str st_one) /\ sm_live (s_str st_one) + 7 < 65534 /\ swarm_call st_one "buzzswarm_in" [OTab 0] (SIn 1) /\ swop_ok 0 (SIn 1) /\
  match lib_cfun sw_fid sw_self sw_put_self demo_c (sw_fid "buzzswarm_in") [OTab 0] st_one with Done (o, _) => o = OInt 1 | _ => False end.
Proof.
  split. { assert (H : nodup Z.eq_dec (map (fun e => sw_fid (fst e)) (swarm_list sw_fid sw_self sw_put_self ++ std_list demo_c)) = map (fun e => sw_fid (fst e)) (swarm_list sw_fid sw_self sw_put_self ++ std_list demo_c)) by (vm_compute; reflexivity). rewrite <- H. apply NoDup_nodup. }
  split; [repeat constructor; cbn; lia|]. split; [vm_compute; reflexivity|].
  split. { exists [SmReg (bs "id") true]. eexists. split; [|vm_compute; reflexivity]. split; [vm_compute; reflexivity|]. vm_compute. exact Logic.I. }
  split; [vm_compute; reflexivity|]. split.
  { apply Call_in. exists 0, one_table, 65537. split; [reflexivity|]. split; [lia|]. split; [reflexivity|]. split; [|reflexivity]. exists (snd one_key). vm_compute. repeat split; discriminate. }
  split; [cbn; lia|]. vm_compute. reflexivity.
Qed.

(** ** C118 *)
(** "An operation that fails changes nothing": it does not hold for union, intersection and difference.  The script ends with an
    error of type because 3 is not a swarm, but the robot is now a member of swarm 5, and announces it. *)
Definition bad_files := one_file (bs "s = swarm.create(1)
u = swarm.union(5, 3, s)").
Definition bad_code : list Z := got_code (buzz_asm no_strtof_ (got_asm (bzzparse bad_files 600 [] (bs "main")))).
Theorem C118_failed_union_joins_refuted :
  exists files asm code v w,
    bzzparse files 600 [] (bs "main") = Ok (Some asm) /\ (exists dbg, buzz_asm no_strtof_ asm = Ok (0, code, dbg)) /\
    lib_registered sw_fid sw_self sw_put_self demo_c sw_flist /\
    load_all sw_fid sw_flist no_powf code 12 60 (vm_new sw_new) = Ok (v, S_READY) /\
    execute_script sw_flist no_powf (byte code) (zlen code) 1000 v = Ok w /\ v_state w = S_ERROR /\ v_error w = E_TYPE /\
    sw_get (v_ext v) 5 = None /\ sw_get (v_ext w) 5 = Some 1 /\ oq_first (sw_out (v_ext w)) = Some (MJoin 5).
Proof.
  exists bad_files. eexists. exists bad_code. eexists. eexists. split; [vm_compute; reflexivity|]. split; [eexists; vm_compute; reflexivity|]. split; [exact sw_registered|].
  split; [vm_compute; reflexivity|]. split; [vm_compute; reflexivity|]. repeat split; vm_compute; reflexivity.
Qed.
Print Assumptions C118_failed_union_joins_refuted.
