(** Scripts with C functions, and calls of their functions by the program that runs them (C101, C102). *)
From Coq Require Import String.
From Verif Require Import Base ListLemmas Float Dict PDict Strman StrmanSpec StrmanProofs Obj Instr Vm VmSpec VmProofs VmFrames PropsVmData PropsVmFrames CFunSpec CFunProofs Strlib PropsStrlib Text Lex LexSpec Asm AsmSpec Load Parser Source CompileSpec Meaning GenRun GcSpec HostSpec PropsLex PropsCompile PropsScript Front FrontProofs.
Local Open Scope Z_scope. Local Open Scope list_scope.

Section Until.
Context {X : Type}.
Variable flist : list (vm X -> res (vm X)).
Variable powf : libm.
Variable code : list Z.
Hypothesis HC : Forall c_function_ok flist.
Notation vm_step := (vm_step flist powf (byte code) (zlen code)).
Notation vm_steps := (vm_steps flist powf (byte code) (zlen code)).
Notation step_until := (step_until flist powf (byte code) (zlen code)).

Lemma steps_stopped k : forall v v' : vm X, v_state v <> S_READY -> vm_steps k v = Ok v' -> v' = v.
Proof.
  induction k as [|k IH]; intros v v' H E; cbn [Vm.vm_steps] in E; [congruence|]. rewrite step_stopped in E by exact H. cbn [bind] in E. apply IH; auto.
Qed.
(** The loop of buzzvm_closure_call stops where the function returned, when the end of the script is there. *)
Lemma until_steps ra s rest L : byte code ra = opnum I_DONE -> forall k (v v' : vm X),
  below ((OInt ra :: s) :: rest) L v -> v_state v = S_READY -> vm_steps k v = Ok v' ->
  v_state v' = S_ERROR \/ v_state v' = S_READY /\ zlen (v_stacks v') <= zlen ((OInt ra :: s) :: rest) ->
  exists m, forall fuel, (m <= fuel)%nat -> step_until fuel (zlen ((OInt ra :: s) :: rest)) v = Ok v'.
Proof.
  intros HD. induction k as [|k IH]; intros v v' HB HRv H HE; cbn [Vm.vm_steps] in H.
  - inversion H; subst v'. destruct HE as [HE|[_ HE]]; [congruence|]. exfalso. destruct HB as (pre & preL & S1 & _ & _ & Hp). rewrite S1 in HE. unfold zlen in HE. rewrite app_length in HE. destruct pre; [congruence|]. cbn [length] in HE. lia.
  - destruct (vm_step v) as [v1| | |] eqn:E; cbn [bind] in H; try discriminate.
    destruct (v_state v1) eqn:ES.
    2: { destruct (step_ready flist powf (byte code) (zlen code) v v1 E ES) as (_ & o & Ho & He).
      destruct (below_step flist powf (byte code) (zlen code) HC ra s rest L o v v1 HB He ES) as [HB1|(top & r & S0 & S1 & L1 & P1 & HX)].
      - destruct (IH v1 v' HB1 ES H HE) as (m & Hm). exists (S m). intros [|fuel] Hf; [lia|]. cbn [Vm.step_until]. rewrite E. cbn [bind]. rewrite ES. cbn [is_ready negb].
        assert (Hl : zlen ((OInt ra :: s) :: rest) <? zlen (v_stacks v1) = true).
        { destruct HB1 as (pre & preL & Q1 & _ & _ & Hp). rewrite Q1. unfold zlen. rewrite app_length. destruct pre; [congruence|]. cbn [length]. lia. }
        rewrite Hl. apply Hm. lia.
      - exists 1%nat. intros [|fuel] Hf; [lia|]. cbn [Vm.step_until]. rewrite E. cbn [bind]. rewrite ES. cbn [is_ready negb]. rewrite S1.
        replace (zlen ((OInt ra :: s) :: rest) <? zlen ((r :: s) :: rest)) with false by (unfold zlen; cbn [length]; lia).
        destruct k as [|k]; cbn [Vm.vm_steps] in H; [congruence|]. exfalso.
        rewrite (step_at flist powf (byte code) (zlen code) v1 I_DONE) in H; [|split; [exact ES|rewrite P1; exact HD]]. cbn [exec bind] in H.
        apply steps_stopped in H; [|discriminate]. subst v'. cbn [set_state v_state] in HE. destruct HE as [HE|[HE _]]; discriminate. }
    all: pose proof H as H'; apply steps_stopped in H'; [|congruence]; subst v'; rewrite ES in HE;
      exists 1%nat; intros [|fuel] Hf; [lia|]; cbn [Vm.step_until]; rewrite E; cbn [bind]; rewrite ES; reflexivity.
Qed.
(** When the function does not return the loop does not end. *)
Lemma until_hangs ra s rest L : byte code ra = opnum I_DONE -> forall fuel (v : vm X), below ((OInt ra :: s) :: rest) L v -> v_state v = S_READY ->
  (forall n, exists k v', (n <= k)%nat /\ vm_steps k v = Ok v' /\ v_state v' = S_READY) -> step_until fuel (zlen ((OInt ra :: s) :: rest)) v = Hang.
Proof.
  intros HD. induction fuel as [|fuel IH]; intros v HB HRv H; [reflexivity|]. cbn [Vm.step_until].
  destruct (H 2%nat) as (k & v' & Hk & E & ER). destruct k as [|[|k]]; [lia|lia|]. cbn [Vm.vm_steps] in E.
  destruct (vm_step v) as [v1| | |] eqn:E1; cbn [bind] in *; try discriminate.
  destruct (v_state v1) eqn:ES.
  2: { cbn [is_ready negb]. destruct (step_ready flist powf (byte code) (zlen code) v v1 E1 ES) as (_ & o & Ho & He).
    destruct (below_step flist powf (byte code) (zlen code) HC ra s rest L o v v1 HB He ES) as [HB1|(top & r & S0 & S1 & L1 & P1 & HX)].
    - replace (zlen ((OInt ra :: s) :: rest) <? zlen (v_stacks v1)) with true.
      + apply IH; auto. intro n. destruct (H (S n)) as (k1 & w & H1 & H2 & H3). destruct k1 as [|k1]; [lia|]. cbn [Vm.vm_steps] in H2. rewrite E1 in H2. cbn [bind] in H2. exists k1, w. split; [lia|auto].
      + destruct HB1 as (pre & preL & Q1 & _ & _ & Hp). rewrite Q1. unfold zlen. rewrite app_length. destruct pre; [congruence|]. cbn [length]. lia.
    - exfalso. rewrite (step_at flist powf (byte code) (zlen code) v1 I_DONE) in E; [|split; [exact ES|rewrite P1; exact HD]]. cbn [exec bind] in E.
      change (vm_steps k (set_state v1 S_DONE (v_error v1)) = Ok v') in E. apply steps_stopped in E; [|discriminate]. subst v'. discriminate. }
  all: exfalso; change (vm_steps (S k) v1 = Ok v') in E; apply steps_stopped in E; [congruence|congruence].
Qed.
(** A call of a function without arguments, by name: the function is entered, and the loop runs until it returned. *)
Lemma call_enters (v : vm X) name id r cap s : (v_state v = S_DONE \/ v_state v = S_READY) -> v_stacks v = [s] -> global_is v name id (OClos true r cap) ->
  exists v2, v_state v2 = S_READY /\ v_pc v2 = r /\ v_stacks v2 = [[]; OInt (v_pc v) :: s] /\ v_lsymts v2 = mkLs (map Some cap) false :: v_lsymts v /\
    v_gsyms v2 = v_gsyms v /\ v_heap v2 = v_heap v /\ v_str v2 = v_str v /\ v_ext v2 = v_ext v /\ v_error v2 = v_error v /\
    forall fuel, function_call flist powf (byte code) (zlen code) fuel v name 0 = step_until fuel (zlen [OInt (v_pc v) :: s]) v2.
Proof.
  intros HS HT HG. unfold function_call. set (u := match v_state v with S_DONE => _ | _ => v end).
  assert (HU : v_state u = S_READY /\ v_stacks u = [s] /\ v_lsymts u = v_lsymts v /\ v_pc u = v_pc v /\ global_is u name id (OClos true r cap) /\
    v_gsyms u = v_gsyms v /\ v_heap u = v_heap v /\ v_str u = v_str v /\ v_ext u = v_ext v /\ v_error u = v_error v).
  { unfold u. destruct HS as [Hs|Hs]; rewrite Hs; repeat split; auto; apply HG. }
  destruct HU as (U1 & U2 & U3 & U4 & U5 & U6 & U7 & U8 & U9 & U10). rewrite U1. cbn [is_ready negb].
  destruct (function_lookup X u name id _ U5) as (w & E1 & E2).
  destruct (sm_register sm_fuel (v_str u) name false) as [[sm' i]| | |]; cbn [bind] in E1 |- *; try discriminate. rewrite E1. cbn [bind].
  subst w. unfold stack_at. cbn. unfold closure_call.
  assert (Hst : stack (push u (OClos true r cap)) = OClos true r cap :: s) by (unfold push, stack; cbn; rewrite U2; reflexivity).
  rewrite Hst. replace (zlen (OClos true r cap :: s) <? 0 + 1) with false by (unfold zlen; cbn [length]; lia). change (Z.to_nat (0 + 1)) with 1%nat. cbn [firstn skipn app].
  set (v1 := push _ (OInt 0)). assert (S1 : stack v1 = OInt 0 :: OClos true r cap :: ONil :: s) by reflexivity.
  assert (EC : vm_call flist v1 false = Ok (set_pc (set_oldpc (set_stacks (set_lsymts v1 (mkLs (map Some cap) false :: v_lsymts v1)) [[]; OInt (v_pc v1) :: s]) (v_pc v1)) r)).
  { unfold vm_call, stack_assert, type_assert, stack_at. rewrite S1. cbn. rewrite ?app_nil_r, ?U2. cbn. generalize (Pos.of_succ_nat (Datatypes.length s)). intro p.
    assert (HP : forall q, (match q with (p~1)%positive => Z.pos p~0 | (p~0)%positive => Z.pos (Pos.pred_double p) | 1%positive => 0 end <? 0) = false) by (intros []; reflexivity).
    rewrite !HP. reflexivity. }
  rewrite EC. cbn [bind]. match type of EC with _ = Ok ?w => exists w end. split; [exact U1|]. split; [reflexivity|]. split; [cbn; rewrite U4; reflexivity|]. split; [cbn; rewrite U3; reflexivity|].
  do 5 (split; [auto|]). intro fuel. f_equal. unfold zlen. cbn. rewrite U2. reflexivity.
Qed.
(** A value that is not a function. *)
Lemma call_no_function (v : vm X) name id : (v_state v = S_DONE \/ v_state v = S_READY) ->
  s2i_get (str2id (v_str v)) name = Some id -> 0 <= id < 65536 -> sm_get (v_str v) id = Some name -> (forall b r cap, global v id <> OClos b r cap) ->
  exists v', (forall fuel, function_call flist powf (byte code) (zlen code) fuel v name 0 = Ok v') /\ v_state v' = S_ERROR /\ v_error v' = E_TYPE.
Proof.
  intros HS H1 H2 H3 H4. unfold function_call. set (u := match v_state v with S_DONE => _ | _ => v end).
  assert (HU : v_state u = S_READY /\ v_str u = v_str v /\ v_gsyms u = v_gsyms v) by (unfold u; destruct HS as [Hs|Hs]; rewrite Hs; repeat split; auto).
  destruct HU as (U1 & U2 & U3). rewrite U1. cbn [is_ready negb]. unfold sm_register. rewrite U2, H1. cbn [bind]. unfold vm_pushs, wrap16.
  rewrite Z.mod_small by (change (2 ^ 16) with 65536; lia). cbn [v_str set_str]. rewrite H3. unfold vm_gload, stack_assert, type_assert, stack_at.
  change (stack (push (set_str u (v_str v)) (OStr id name))) with (OStr id name :: stack u).
  replace (zlen (OStr id name :: stack u) - 1 <? 0) with false by (unfold zlen; cbn [length]; lia). cbn. rewrite U3. unfold global in H4.
  destruct (gsym_get (v_gsyms v) id) as [o|]; cbn.
  - destruct o as [| | | | |b r cap|]; try (eexists; split; [intro; reflexivity|]; split; reflexivity). destruct (H4 b r cap); reflexivity.
  - eexists; split; [intro; reflexivity|]; split; reflexivity.
Qed.
End Until.

(** A string of the manager is found again. *)
Lemma kept_id sm s i : strings_ok sm -> 0 <= i < 65536 -> sm_get sm i = Some s -> s2i_get (str2id sm) s = Some i.
Proof.
  intros (ops & outs & H & E) Hi HG. destruct SInv_new as [HI HD]. destruct (sm_run_ok ops _ _ HI HD H) as (sm' & outs' & M' & E' & _ & HI' & _). rewrite E in E'. inversion E'; subst sm'.
  destruct (get_ok sm M' i HI' Hi) as [(r & ER & HH) _]. inversion ER; subst r. apply HH in HG as [q HG]. rewrite (si_s2i _ _ HI'), HG. reflexivity.
Qed.

(** From the file to the VM: what C94 says, for scripts that call C functions and for the functions of the script. *)
Lemma script_file :
  forall strtof open name path text ps ts l,
  open name = Some (path, text) -> text ++ [NL] = layout ps -> reads open [path] path [] ps ts ->
  (forall t, In t ts -> t_line t < 2 ^ 63 /\ t_col t < 2 ^ 63 /\ plain_path (t_file t)) ->
  spells_script ts l -> ok_script strtof l = true ->
  NoDup (map fn_id (functions l)) -> zlen (nodup (list_eq_dec Z.eq_dec) (words l)) <= 65534 ->
  exists k0 asm, (forall k, (k0 <= k)%nat -> bzzparse open k [] name = Ok (Some asm)) /\
  (zlen asm < 2 ^ 31 ->
   exists code dbg sid ref,
     buzz_asm strtof asm = Ok (0, code, dbg) /\
     (forall f h, In f (functions l) -> In h (functions l) -> ref (fn_id f) = ref (fn_id h) -> f = h) /\
     (forall s, In s (words l) -> 0 <= sid s < 65536) /\
     exists m, forall X (x : X) flist powf fuel, (m <= fuel)%nat ->
     exists v, load_code flist powf code fuel (vm_new x) = Ok (v, true) /\
       prepared (eq (v_str v)) sid (words l) v v (start ref l (v_str v) x) /\ strings_ok (v_str v) /\ v_stacks v = [[]] /\
       forall sm_ok cfun, c_functions flist sm_ok cfun ->
       (forall v1 st, prepared sm_ok sid (words l) v v1 st ->
         (forall n, executes code sm_ok sid (words l) (fun fuel => execute_script flist powf (byte code) (zlen code) fuel v1) (run strtof powf sid ref (functions l) cfun n l st)) /\
         ((forall n, run strtof powf sid ref (functions l) cfun n l st = More) -> forall fuel, execute_script flist powf (byte code) (zlen code) fuel v1 = Hang)) /\
       (Forall c_function_ok flist -> (forall sm, sm_ok sm -> strings_ok sm) ->
        forall v1 st s f, waiting code sm_ok sid (words l) v1 st s -> In f (words l) -> (forall i cap, s_glob st f <> OClos false i cap) ->
         (forall n, answers code sm_ok sid (words l) s (fun fuel => function_call flist powf (byte code) (zlen code) fuel v1 f 0)
                      (call (at_most strtof powf sid ref (functions l) cfun n) (s_glob st f) [] st)) /\
         ((forall n, call (at_most strtof powf sid ref (functions l) cfun n) (s_glob st f) [] st = More) ->
          forall fuel, function_call flist powf (byte code) (zlen code) fuel v1 f 0 = Hang))).
Proof.
  intros strtof open name path text ps ts l HO HT HR HP HS HOK HID HW.
  destruct (C54_tokens_partial open name path text ps ts HO HT HR) as (lx & n0 & HN & HL).
  assert (HF : Forall fine_token (filter no_statend ts)).
  { apply Forall_forall. intros t Ht. apply filter_In in Ht. destruct Ht as [Ht Hs]. pose proof (reads_lexed _ _ _ _ _ _ HR) as HX. rewrite Forall_forall in HX. destruct (HX t Ht) as (A & B & C & D).
    destruct (HP t Ht) as (P1 & P2 & P3 & P4). split; auto. split; [intro E; unfold no_statend in Hs; rewrite E in Hs; discriminate|]. split; auto. cbn [dbg_ok]. split; [lia|]. split; [lia|]. split; auto. }
  destruct (compiled strtof ts false l HS HOK HF HID ltac:(lia)) as (k0 & asm & HC & H). exists (Nat.max n0 k0), asm. split.
  { intros k Hk. unfold bzzparse. rewrite HN, HL by lia. cbn [bind]. apply HC. lia. }
  intro HA. destruct (H HA) as (code & dbg & sid & ref & H1 & H2 & HR0 & m & H3). exists code, dbg, sid, ref. split; auto. split; auto. split; auto. exists m. intros X x flist powf fuel Hf.
  destruct (H3 X x flist powf fuel Hf) as (v & V1 & V2 & V3 & V4 & V5 & V6 & V7 & V8 & _ & HG). exists v. split; auto. split; auto. split; auto. split; auto.
  intros sm_ok cfun Hc. destruct (HG sm_ok cfun Hc) as [HG1 HG2]. split.
  - intros v1 st HPr. pose proof (HG1 v1 st HPr) as HD. pose proof HPr as (B1 & B2 & B3 & B4 & B5). split.
    + intro n. specialize (HD n). destruct (run strtof powf sid ref (functions l) cfun n l st) as [st'|e| |] eqn:ER; cbn [executes does_path] in *; auto.
      * destruct HD as (k & v' & [D1 _] & D2 & D3 & D4 & D5 & D6 & D7 & D8 & D9 & D10 & D11 & D12 & D13). exists (S k), v'. split; [intros f Hff; eapply execute_steps; eauto; congruence|].
        split; [exact D2|]. split; [auto|]. split; [exact D10|]. split; [exact D11|]. split; [congruence|]. split; [congruence|]. destruct B5 as (_ & _ & _ & _ & _ & _ & _ & B6).
        split; [exact D3|]. split; [exact D12|]. split; [auto|]. split; [auto|]. split; [auto|]. split; [intros y Hy; symmetry; auto|]. split; auto.
      * destruct HD as (k & v' & [D1 _] & D2 & D3). exists (S k), v'. split; [|auto]. intros f Hff. eapply execute_steps; eauto. congruence.
    + intros HM f. apply execute_goes_on. eapply C53_never_stops with (o := fun n => run strtof powf sid ref (functions l) cfun n l st); [|exact HM]. intro n. eapply path_does. apply HD.
  - intros HCok HSm v1 st s f (W1 & W2 & W3 & W4 & W5 & W6) Hf1 HNc. pose proof W6 as (A1 & A2 & A3 & A4 & A5 & A6 & A7 & A8).
    assert (Hid : sm_get (v_str v1) (sid f) = Some f) by (apply A8; auto).
    assert (HGd : (exists r cap, s_glob st f = OClos true r cap) \/ (forall b r cap, s_glob st f <> OClos b r cap)).
    { destruct (s_glob st f) as [| | | | |[] r cap|] eqn:EG; try (right; discriminate); [left; eauto|]. destruct (HNc r cap); reflexivity. }
    destruct HGd as [(r & cap & HGl)|HGl].
    2: { assert (HCl : forall n, call (at_most strtof powf sid ref (functions l) cfun n) (s_glob st f) [] st = Fail E_TYPE).
      { intros [|n]; cbn [at_most call]; unfold apply; destruct (s_glob st f) as [| | | | |b r cap|]; auto; destruct (HGl b r cap); reflexivity. }
      destruct (call_no_function flist powf code v1 f (sid f) W1 (kept_id _ _ _ (HSm _ A7) (HR0 f Hf1) Hid) (HR0 f Hf1) Hid) as (w & N1 & N2 & N3).
      { intros b r cap E. rewrite <- (A6 f Hf1) in E. exact (HGl b r cap E). }
      split; [|intro HM; specialize (HM 0%nat); rewrite HCl in HM; discriminate].
      intro n. rewrite HCl. cbn [answers]. exists 0%nat, w. auto. }
    rewrite HGl.
    assert (HGI : global_is v1 f (sid f) (OClos true r cap)).
    { split; [apply kept_id; auto|]. split; [auto|]. split; [exact Hid|]. rewrite (A6 f Hf1) in HGl. unfold global in HGl. destruct (gsym_get (v_gsyms v1) (sid f)); [congruence|discriminate]. }
    destruct (call_enters flist powf code v1 f (sid f) r cap s W1 W4 HGI) as (v2 & S1 & S2 & S3 & S4 & S5 & S6 & S7 & S8 & S9 & HFC).
    rewrite W5 in S4.
    assert (HAg : agrees sm_ok sid (words l) v2 st).
    { split; [congruence|]. split; [congruence|]. do 3 (split; [congruence|]). split; [|split; [congruence|auto]]. intros y Hy. unfold global. rewrite S5. apply (A6 y Hy). }
    pose proof (fun n => HG2 v2 st r cap [] (v_pc v1) s [] [] n W3 S1 S2 S3) as HN2. rewrite app_nil_r in HN2. specialize (fun n => HN2 n S4 (fun _ F => match F with end) HAg) as HN3. clear HN2.
    assert (HB : below [OInt (v_pc v1) :: s] [] v2) by (exists [[]], [mkLs (map Some cap) false]; rewrite S3, S4; repeat split; discriminate).
    split.
    + intros [|n]; [exact I|]. specialize (HN3 n). destruct (call _ _ _ _) as [[o st']|e| |] eqn:EC; cbn [answers]; auto.
      * destruct HN3 as (k & v' & K1 & K2 & K3 & K4 & K5 & K6).
        destruct (until_steps flist powf code HCok (v_pc v1) s [] [] W2 k v2 v' HB S1 K1) as (m1 & Hm1); [right; split; [auto|rewrite K4; unfold zlen; cbn [length]; lia]|].
        exists m1, v'. split; [intros fu Hfu; rewrite HFC; apply Hm1; lia|]. split; [exact K2|]. split; [auto|]. rewrite K3. split; [exact W2|]. split; [exact W3|]. split; [exact K4|]. split; [exact K5|]. exact K6.
      * destruct HN3 as (k & v' & K1 & K2 & K3).
        destruct (until_steps flist powf code HCok (v_pc v1) s [] [] W2 k v2 v' HB S1 K1) as (m1 & Hm1); [left; exact K2|].
        exists m1, v'. split; [intros fu Hfu; rewrite HFC; apply Hm1; lia|]. auto.
    + intros HM fu. rewrite HFC. apply (until_hangs flist powf code HCok (v_pc v1) s [] [] W2 fu v2 HB S1). intro n. specialize (HN3 n). rewrite (HM (S n)) in HN3.
      destruct HN3 as (k & v' & K0 & K1 & K2). exists k, v'. auto.
Qed.

(** ** Strings and global variables of the host *)
Lemma keeping_self sm : strings_ok sm -> keeping sm sm. Proof. intro H. split; auto. Qed.
Lemma keeping_new sm0 sm s p : keeping sm0 sm -> sm_live sm < 65534 ->
  exists sm' id, sm_register sm_fuel sm s p = Ok (sm', id) /\ 0 <= id < 65536 /\ sm_get sm' id = Some s /\ keeping sm0 sm' /\
    (forall i t, 0 <= i < 65536 -> sm_get sm i = Some t -> sm_get sm' i = Some t).
Proof.
  intros [(ops & outs & H1 & H2) HK] HL. destruct (register_good sm s p) as (sm' & id & E & Hi & HG & HM & ops' & outs' & H3 & H4).
  { split; [exists ops, outs; auto|exact HL]. }
  exists sm', id. split; [exact E|]. split; [exact Hi|]. split; [exact HG|]. split; [|exact HM]. split; [exists ops', outs'; auto|]. intros i t Hr Ht. apply HM; auto.
Qed.
Lemma prepared_keeping X sid ws (v v1 : vm X) st : (forall s, In s ws -> 0 <= sid s < 65536) -> strings_ok (v_str v) -> prepared (eq (v_str v)) sid ws v v1 st -> prepared (keeping (v_str v)) sid ws v v1 st.
Proof.
  intros HR HS (B1 & B2 & B3 & B4 & A1 & A2 & A3 & A4 & A5 & A6 & A7 & A8). do 4 (split; auto). split; [auto|]. split; [auto|]. do 3 (split; [auto|]). split; [auto|]. split; [rewrite <- A7; apply keeping_self; auto|].
  intros sm y [_ HK] Hy. apply HK; auto.
Qed.
(** The host stores a value in a global variable: the script starts with that variable. *)
Lemma prepared_define X sid ws (v v1 : vm X) st name o : (forall s, In s ws -> 0 <= sid s < 65536) -> v_stacks v = [[]] -> prepared (keeping (v_str v)) sid ws v v1 st -> sm_live (v_str v1) < 65534 ->
  exists v2, define v1 name o = Ok v2 /\ prepared (keeping (v_str v)) sid ws v v2 (set_strs (set_glob st name o) (v_str v2)).
Proof.
  intros HR HV (B1 & B2 & B3 & B4 & A1 & A2 & A3 & A4 & A5 & A6 & A7 & A8) HL. unfold define, push_string.
  destruct (keeping_new _ _ name true A7 HL) as (sm & id & E & Hi & HG & HK & HM). rewrite E. cbn [bind]. unfold vm_pushs. rewrite wrap16_id by exact Hi. cbn [v_str set_str]. rewrite HG.
  unfold vm_gstore, stack_assert, type_assert, stack_at. rewrite HV in B3.
  assert (Hst : stack (push (push (set_str v1 sm) (OStr id name)) o) = [o; OStr id name]) by (unfold push, stack; cbn; rewrite B3; reflexivity). rewrite Hst. cbn.
  eexists. split; [reflexivity|]. split; [exact B1|]. split; [exact B2|]. split; [cbn; rewrite B3, HV; reflexivity|]. split; [exact B4|]. split; [exact A1|]. split; [apply stored_set; exact A2|].
  do 3 (split; [cbn; auto|]). split; [|split; [exact HK|exact A8]].
  intros y Hy. cbn [s_glob set_strs set_glob]. unfold global. match goal with |- context [v_gsyms ?w] => change (v_gsyms w) with (gsym_set (v_gsyms v1) id o) end. rewrite (PropsVmData.get_stored (fun x => x) 0) by exact A2.
  pose proof (A8 _ y A7 Hy) as Hy1. pose proof (HM _ _ (HR y Hy) Hy1) as Hy2. unfold set_glob. cbn [s_glob]. destruct (same name y) eqn:EQ; [apply GenStep.same_true in EQ; subst y|assert (Hne : y <> name) by (intros ->; unfold same in EQ; destruct (list_eq_dec Z.eq_dec name name); congruence)].
  - assert (id = sid name). { pose proof (kept_id _ _ _ (proj1 HK) (HR name Hy) Hy2) as Q1. pose proof (kept_id _ _ _ (proj1 HK) Hi HG) as Q2. congruence. }
    subst id. rewrite Z.eqb_refl. reflexivity.
  - destruct (Z.eqb_spec id (sid y)) as [->|_]; [rewrite HG in Hy2; congruence|]. exact (A6 y Hy).
Qed.

(** ** The string functions as C functions of the language *)
Definition string_flist X : list (vm X -> res (vm X)) := [string_length; string_sub; string_concat].
Section StringOk.
Context {X : Type}.
Variables (v : vm X) (st : sst X) (args : list obj) (ra : Z) (s : list obj) (rest : list (list obj)) (L : list lsyms) (sm0 : strman).
Hypotheses (HR : v_state v = S_READY) (HE : v_error v = E_NONE) (HS : v_stacks v = [] :: (OInt ra :: s) :: rest) (HL : v_lsymts v = mkLs (map Some args) false :: L)
  (H1 : v_heap v = s_heap st) (H2 : v_str v = s_str st) (H3 : v_ext v = s_ext st) (HK : keeping sm0 (v_str v)).
Definition c_done (f : res (vm X)) (o : out (obj * sst X)) : Prop :=
  match o with
  | Done (r, st') => exists v', f = Ok v' /\ v_state v' = S_READY /\ v_error v' = E_NONE /\ v_pc v' = ra /\
      v_stacks v' = (r :: s) :: rest /\ v_lsymts v' = L /\ v_gsyms v' = v_gsyms v /\ (forall x, s_glob st' x = s_glob st x) /\
      v_heap v' = s_heap st' /\ v_str v' = s_str st' /\ v_ext v' = s_ext st' /\ keeping sm0 (v_str v')
  | Fail e => exists v', f = Ok v' /\ v_state v' = S_ERROR /\ v_error v' = e
  | Unspec => True
  | More => False
  end.
(** The function loaded arguments and returns a value. *)
Lemma done_ret w r t : w = set_stack v t -> c_done (vm_ret1 (push w r)) (Done (r, st)).
Proof.
  intros ->. cbn [c_done]. eexists. split; [eapply ret1_ok; [cbn; rewrite HS; reflexivity|exact HL]|]. cbn. do 10 (split; [auto|]). auto.
Qed.
Lemma done_new w t u : w = set_stack v t -> c_done (v4 <- push_new_string w u ;; vm_ret1 v4) (new_string st u).
Proof.
  intros ->. unfold new_string, push_new_string. rewrite <- H2. destruct (sm_live (v_str v) <? 65534) eqn:EL; [|exact I]. cbn [v_str set_stack].
  destruct (keeping_new _ _ u false HK ltac:(lia)) as (sm & id & E & Hi & HG & HK2 & _). change (v_str (set_stack v t)) with (v_str v). rewrite E. cbn [bind c_done].
  unfold vm_pushs. rewrite wrap16_id by exact Hi. cbn [v_str set_str]. rewrite HG. eexists. split; [eapply ret1_ok; [cbn; rewrite HS; reflexivity|exact HL]|]. cbn. do 10 (split; [auto|]). auto.
Qed.
Lemma done_err w e : c_done (Ok (err w e)) (Fail e). Proof. eexists. repeat split. Qed.
Ltac load1 a := match goal with |- context [vm_lload ?w ?i] => rewrite (lload_ok w args L i a HL ltac:(lia) ltac:(subst args; reflexivity)) end; cbn [bind]; unfold type_assert, top_str, top_int; rewrite ?top_push; cbn [bind];
  repeat match goal with |- context [otype ?o =? ?t] => let b := eval cbv in (otype o =? t) in change (otype o =? t) with b end; cbv beta iota; rewrite ?top_push; cbn [bind].
Lemma push_set w t o : w = set_stack v t -> push w o = set_stack v (o :: t).
Proof. intros ->. unfold push, stack. cbn. destruct v; cbn in *. rewrite HS. reflexivity. Qed.
Lemma set_self : v = set_stack v []. Proof. destruct v; cbn in *. unfold set_stack. cbn. rewrite HS. reflexivity. Qed.
Hint Resolve push_set set_self : core.
Lemma c_length : c_done (string_length v) (string_cfun 0 args st).
Proof.
  unfold string_length, lnum_assert. rewrite (lnum_ok v args L HL). cbn [bind string_cfun].
  destruct args as [|x [|y [|z r]]] eqn:EA; try apply done_err.
  - change (zlen [x; y] - 1 =? 1) with true. cbv iota. rewrite <- EA in *. destruct y as [| | |i t| | |].
    4: { destruct (zlen t <? 2 ^ 31) eqn:ET; [|exact I]. load1 (OStr i t). rewrite sign32_small by (unfold zlen in *; lia). eapply done_ret. eauto. }
    all: match goal with |- context [vm_lload ?w ?i] => rewrite (lload_ok w args L i _ HL ltac:(lia) ltac:(subst args; reflexivity)) end; cbn [bind]; unfold type_assert; rewrite top_push; cbn [bind]; apply done_err.
  - replace (zlen (x :: y :: z :: r) - 1 =? 1) with false by (unfold zlen; cbn [length]; lia). destruct y; apply done_err.
Qed.
Lemma c_sub : c_done (string_sub v) (string_cfun 1 args st).
Proof.
  unfold string_sub. rewrite (lnum_ok v args L HL). cbn [bind string_cfun].
  destruct args as [|x [|y [|z r]]] eqn:EA; try exact I; destruct y as [| | |i t| | |]; try exact I. destruct z as [|n| | | | |]; try exact I.
  destruct r as [|w r]; [|destruct w as [|m| | | | |]; try exact I; destruct r as [|w r]; try exact I].
  - destruct (_ || _) eqn:EO; [exact I|]. apply orb_false_iff in EO as [EO1 EO2]. change (zlen [x; OStr i t; OInt n] - 1) with 2. cbn [Z.eqb Pos.eqb negb andb]. rewrite <- EA in *.
    load1 (OStr i t). load1 (OInt n). rewrite sign32_small by (unfold zlen in *; lia). destruct (zlen t <=? n); [eapply done_ret; eauto|]. unfold sub_chars. rewrite EO2. cbn [bind]. eapply done_new; eauto.
  - destruct ((2 ^ 31 <=? zlen t) || (n <? 0)) eqn:EO; [exact I|]. apply orb_false_iff in EO as [EO1 EO2]. change (zlen [x; OStr i t; OInt n; OInt m] - 1) with 3. cbn [Z.eqb Pos.eqb negb andb]. rewrite <- EA in *.
    load1 (OStr i t). load1 (OInt n). rewrite sign32_small by (unfold zlen in *; lia). destruct (zlen t <=? n); [eapply done_ret; eauto|]. cbn [orb]. load1 (OInt m). destruct (m <? n); [eapply done_ret; eauto|].
    unfold sub_chars. rewrite EO2. cbn [bind]. replace (if zlen t <=? m then zlen t else m) with (Z.min m (zlen t)) by (destruct (zlen t <=? m) eqn:Q; lia). eapply done_new; eauto.
Qed.
Lemma c_concat : c_done (string_concat v) (string_cfun 2 args st).
Proof.
  unfold string_concat. rewrite (lnum_ok v args L HL). cbn [bind string_cfun].
  destruct args as [|x [|y [|z [|]]]] eqn:EA; try exact I; destruct y as [| | |i t| | |]; try exact I; destruct z as [| | |j u| | |]; try exact I.
  destruct (zlen t + zlen u <? 2 ^ 32) eqn:ET; [|exact I]. change (zlen [x; OStr i t; OStr j u] - 1) with 2. change (Z.to_nat 2) with 2%nat. cbn [Z.ltb Z.compare Pos.compare Pos.compare_cont concat_load]. rewrite <- EA in *.
  load1 (OStr i t). change (1 + 1) with 2. load1 (OStr j u).
  assert (EC : concat_copy (push (push v (OStr i t)) (OStr j u)) 2 = Ok (t ++ u)) by (cbn; rewrite app_nil_r; reflexivity).
  rewrite EC. cbn [bind]. unfold wrap32. rewrite zlen_app. pose proof (zlen_nonneg t). pose proof (zlen_nonneg u). rewrite (Z.mod_small (0 + zlen t)) by lia. rewrite Z.mod_small by lia. rewrite Z.add_0_l, Z.eqb_refl. eapply done_new; eauto.
Qed.
End StringOk.
Lemma string_functions_ok X sm0 : c_functions (string_flist X) (keeping sm0) string_cfun.
Proof.
  split.
  - intros i args st Hi. unfold string_flist, zlen in Hi. cbn [length] in Hi. destruct i as [|[[]|[]|]|]; try reflexivity; lia.
  - intros i f args st v ra s rest L Hi Hf HR HE HS HL H1 H2 H3 HK.
    assert (HD : c_done v st ra s rest L sm0 (f v) (string_cfun i args st)).
    { unfold string_flist in Hf. remember (Z.to_nat i) as k eqn:Ek. destruct k as [|[|[|k]]]; cbn in Hf; try (injection Hf as <-).
      - replace i with 0 by lia. apply (c_length v st args); auto.
      - replace i with 1 by lia. apply (c_sub v st args); auto.
      - replace i with 2 by lia. apply (c_concat v st args); auto.
      - destruct k; discriminate. }
    exact HD.
Qed.
Lemma string_flist_ends X : Forall c_function_ok (string_flist X).
Proof.
  repeat constructor; eapply (C73_frames X (fun _ => []) (fun _ => S754_nan) (fun _ => None)); cbn [string_functions In]; eauto.
Qed.

(** ** C101 *)
(** A script in files is compiled, assembled and loaded as in C94.  The host then stores values in global variables, such as C
    functions, in any number; executing the script gives what the language says, where C functions do what [cfun]
    says of them. *)
Theorem C101_script_with_c_functions :
  forall strtof open name path text ps ts l,
  open name = Some (path, text) -> text ++ [NL] = layout ps -> reads open [path] path [] ps ts ->
  (forall t, In t ts -> t_line t < 2 ^ 63 /\ t_col t < 2 ^ 63 /\ plain_path (t_file t)) ->
  spells_script ts l -> ok_script strtof l = true ->
  NoDup (map fn_id (functions l)) -> zlen (nodup (list_eq_dec Z.eq_dec) (words l)) <= 65534 ->
  exists k0 asm, (forall k, (k0 <= k)%nat -> bzzparse open k [] name = Ok (Some asm)) /\
  (zlen asm < 2 ^ 31 ->
   exists code dbg sid ref,
     buzz_asm strtof asm = Ok (0, code, dbg) /\
     (forall f h, In f (functions l) -> In h (functions l) -> ref (fn_id f) = ref (fn_id h) -> f = h) /\
     exists m, forall X (x : X) flist powf fuel, (m <= fuel)%nat ->
     exists v, load_code flist powf code fuel (vm_new x) = Ok (v, true) /\
       prepared (keeping (v_str v)) sid (words l) v v (start ref l (v_str v) x) /\
       (forall v1 st y o, prepared (keeping (v_str v)) sid (words l) v v1 st -> sm_live (v_str v1) < 65534 ->
          exists v2, define v1 y o = Ok v2 /\ prepared (keeping (v_str v)) sid (words l) v v2 (set_strs (set_glob st y o) (v_str v2))) /\
       forall cfun, c_functions flist (keeping (v_str v)) cfun ->
       forall v1 st, prepared (keeping (v_str v)) sid (words l) v v1 st ->
         (forall n, executes code (keeping (v_str v)) sid (words l) (fun fuel => execute_script flist powf (byte code) (zlen code) fuel v1)
                      (run strtof powf sid ref (functions l) cfun n l st)) /\
         ((forall n, run strtof powf sid ref (functions l) cfun n l st = More) ->
          forall fuel, execute_script flist powf (byte code) (zlen code) fuel v1 = Hang)).
Proof.
  intros strtof open name path text ps ts l HO HT HR HP HS HOK HID HW.
  destruct (script_file strtof open name path text ps ts l HO HT HR HP HS HOK HID HW) as (k0 & asm & HC & H). exists k0, asm. split; [exact HC|]. intro HA.
  destruct (H HA) as (code & dbg & sid & ref & H1 & H2 & HR0 & m & H3). exists code, dbg, sid, ref. split; auto. split; auto. exists m. intros X x flist powf fuel Hf.
  destruct (H3 X x flist powf fuel Hf) as (v & V1 & V2 & V3 & V3' & V4). exists v. split; auto. split; [apply prepared_keeping; auto|].
  split; [|intros cfun Hc; apply (V4 _ _ Hc)]. intros v1 st y o HPr HL. apply prepared_define; auto.
Qed.
Print Assumptions C101_script_with_c_functions.

(** ** C102 *)
(** The host calls functions of the script, by their names and without arguments, when the script has ended: each call
    gives the value and the state that the language says, from the state the script and the calls before it left; or
    never returns. *)
Theorem C102_host_calls :
  forall strtof open name path text ps ts l,
  open name = Some (path, text) -> text ++ [NL] = layout ps -> reads open [path] path [] ps ts ->
  (forall t, In t ts -> t_line t < 2 ^ 63 /\ t_col t < 2 ^ 63 /\ plain_path (t_file t)) ->
  spells_script ts l -> ok_script strtof l = true ->
  NoDup (map fn_id (functions l)) -> zlen (nodup (list_eq_dec Z.eq_dec) (words l)) <= 65534 ->
  exists k0 asm, (forall k, (k0 <= k)%nat -> bzzparse open k [] name = Ok (Some asm)) /\
  (zlen asm < 2 ^ 31 ->
   exists code dbg sid ref,
     buzz_asm strtof asm = Ok (0, code, dbg) /\
     (forall f h, In f (functions l) -> In h (functions l) -> ref (fn_id f) = ref (fn_id h) -> f = h) /\
     exists m, forall X (x : X) flist powf fuel, (m <= fuel)%nat ->
     exists v, load_code flist powf code fuel (vm_new x) = Ok (v, true) /\
       forall cfun, c_functions flist (keeping (v_str v)) cfun -> Forall c_function_ok flist ->
       (* the whole life of a script *)
       (forall v1 st st1 n fs, prepared (keeping (v_str v)) sid (words l) v v1 st -> incl fs (words l) ->
          run strtof powf sid ref (functions l) cfun n l st = Done st1 ->
          match calls (at_most strtof powf sid ref (functions l) cfun n) fs st1 with
          | Done (rs, st2) => gives_from (fun fuel => w <- execute_script flist powf (byte code) (zlen code) fuel v1 ;; function_calls flist powf code fuel w fs)
              (fun w => waiting code (keeping (v_str v)) sid (words l) w st2 (rev rs))
          | Fail e => gives_from (fun fuel => w <- execute_script flist powf (byte code) (zlen code) fuel v1 ;; function_calls flist powf code fuel w fs)
              (fun w => v_state w = S_ERROR /\ v_error w = e)
          | Unspec | More => True
          end) /\
       (* one call *)
       forall w st s f, waiting code (keeping (v_str v)) sid (words l) w st s -> In f (words l) -> (forall i cap, s_glob st f <> OClos false i cap) ->
         (forall n, answers code (keeping (v_str v)) sid (words l) s (fun fuel => function_call flist powf (byte code) (zlen code) fuel w f 0)
                      (call (at_most strtof powf sid ref (functions l) cfun n) (s_glob st f) [] st)) /\
         ((forall n, call (at_most strtof powf sid ref (functions l) cfun n) (s_glob st f) [] st = More) ->
          forall fuel, function_call flist powf (byte code) (zlen code) fuel w f 0 = Hang)).
Proof.
  intros strtof open name path text ps ts l HO HT HR HP HS HOK HID HW.
  destruct (script_file strtof open name path text ps ts l HO HT HR HP HS HOK HID HW) as (k0 & asm & HC & H). exists k0, asm. split; [exact HC|]. intro HA.
  destruct (H HA) as (code & dbg & sid & ref & H1 & H2 & HR0 & m & H3). exists code, dbg, sid, ref. split; auto. split; auto. exists m. intros X x flist powf fuel Hf.
  destruct (H3 X x flist powf fuel Hf) as (v & V1 & V2 & V3 & V3' & V4). exists v. split; auto. intros cfun Hc HCok.
  destruct (V4 _ _ Hc) as [HG1 HG2]. specialize (HG2 HCok (fun sm Hsm => proj1 Hsm)). split; [|exact HG2].
  intros v1 st st1 n fs HPr HIn ER. pose proof (proj1 (HG1 v1 st HPr) n) as HX. rewrite ER in HX. cbn [executes] in HX. destruct HX as (kx & w & HX & _ & HWt).
  assert (HF : forall fs w st s, incl fs (words l) -> waiting code (keeping (v_str v)) sid (words l) w st s ->
    match calls (at_most strtof powf sid ref (functions l) cfun n) fs st with
    | Done (rs, st2) => gives_from (fun fuel => function_calls flist powf code fuel w fs) (fun w => waiting code (keeping (v_str v)) sid (words l) w st2 (rev rs ++ s))
    | Fail e => gives_from (fun fuel => function_calls flist powf code fuel w fs) (fun w => v_state w = S_ERROR /\ v_error w = e)
    | Unspec | More => True
    end).
  { clear - HG2. induction fs as [|f fs IH]; intros w st s HIn HWt; cbn [calls function_calls].
    - exists 0%nat, w. cbn [rev app]. auto.
    - assert (Hf : In f (words l)) by (apply HIn; left; reflexivity). assert (HIn' : incl fs (words l)) by (intros y Hy; apply HIn; right; exact Hy).
      assert (HA : (forall i cap, s_glob st f <> OClos false i cap) ->
        match obind (call (at_most strtof powf sid ref (functions l) cfun n) (s_glob st f) [] st) (fun '(x, st) => obind (calls (at_most strtof powf sid ref (functions l) cfun n) fs st) (fun '(xs, st) => Done (x :: xs, st))) with
        | Done (rs, st2) => gives_from (fun fuel => v1 <- function_call flist powf (byte code) (zlen code) fuel w f 0 ;; function_calls flist powf code fuel v1 fs) (fun w => waiting code (keeping (v_str v)) sid (words l) w st2 (rev rs ++ s))
        | Fail e => gives_from (fun fuel => v1 <- function_call flist powf (byte code) (zlen code) fuel w f 0 ;; function_calls flist powf code fuel v1 fs) (fun w => v_state w = S_ERROR /\ v_error w = e)
        | Unspec | More => True
        end).
      { intro HNc. pose proof (proj1 (HG2 w st s f HWt Hf HNc) n) as HAn. destruct (call _ _ _ _) as [[o st2]|e| |]; cbn [obind answers] in *; auto.
        - destruct HAn as (k1 & w1 & E1 & _ & HW1). specialize (IH w1 st2 (o :: s) HIn' HW1). destruct (calls _ fs st2) as [[xs st3]|e| |]; cbn [obind]; auto.
          + destruct IH as (k2 & w2 & E2 & HW2). exists (Nat.max k1 k2), w2. split; [intros fu Hfu; rewrite E1 by lia; apply E2; lia|]. cbn [rev]. rewrite <- app_assoc. exact HW2.
          + destruct IH as (k2 & w2 & E2 & HW2). exists (Nat.max k1 k2), w2. split; [intros fu Hfu; rewrite E1 by lia; apply E2; lia|]. exact HW2.
        - destruct HAn as (k1 & w1 & E1 & HE). exists k1, w1. split; [|exact HE]. intros fu Hfu. rewrite E1 by lia. cbn [bind].
          assert (HEr : forall gs, function_calls flist powf code fu w1 gs = Ok w1).
          { induction gs as [|g gs IHg]; cbn [function_calls]; auto. unfold function_call. destruct HE as [HE _]. rewrite HE. cbn [is_ready negb]. rewrite HE. exact IHg. }
          apply HEr. }
      destruct (s_glob st f) as [| | | | |[] r cap|]; auto; apply HA; discriminate. }
  specialize (HF fs w st1 [] HIn HWt). destruct (calls _ fs st1) as [[rs st2]|e| |]; auto.
  - destruct HF as (k2 & w2 & E2 & HW2). exists (Nat.max kx k2), w2. split; [intros fu Hfu; rewrite HX by lia; apply E2; lia|]. rewrite app_nil_r in HW2. exact HW2.
  - destruct HF as (k2 & w2 & E2 & HW2). exists (Nat.max kx k2), w2. split; [intros fu Hfu; rewrite HX by lia; apply E2; lia|]. exact HW2.
Qed.
Print Assumptions C102_host_calls.

(** A script in two files; the host has defined len, sub and concat; then it calls step twice, and once more something that is
    not a function.  The machine does the same. *)
Definition host_files (name : list Z) : option (list Z * list Z) :=
  if list_eq_dec Z.eq_dec name (bs "main") then Some (bs "/main",
    bs "include 'lib'
hello = concat('ro', 'bot')
function step() {
  n = n + len(hello)      # 5, 10
  return sub(hello, n % 4) # obot, bot
}")
  else if list_eq_dec Z.eq_dec name (bs "lib") then Some (bs "/lib", bs "n = 0")
  else None.
Definition host_script : stats := match script_of no_strtof_ host_files 300 (bs "main") with Some l => l | None => Ss_nil end.
Definition host_asm : list Z := match bzzparse host_files 600 [] (bs "main") with Ok (Some t) => t | _ => [] end.
Definition host_code : list Z := match buzz_asm no_strtof_ host_asm with Ok (_, c, _) => c | _ => [] end.
Definition host_vm : vm unit :=
  match load_code (string_flist unit) no_powf host_code 40 (vm_new tt) with
  | Ok (v, _) =>
      match (v1 <- define v (bs "len") (OClos false 0 [ONil]) ;; v2 <- define v1 (bs "sub") (OClos false 1 [ONil]) ;; define v2 (bs "concat") (OClos false 2 [ONil])) with
      | Ok v3 => v3
      | _ => vm_new tt
      end
  | _ => vm_new tt
  end.
Definition string_is (o : obj) (t : str) : Prop := match o with OStr _ u => u = t | _ => False end.
Example C101_C102_case :
  holds_script no_strtof_ host_files (bs "main") host_script /\ zlen host_asm < 2 ^ 31 /\ host_code <> [] /\
  (let st0 := start (fun i => i) host_script (v_str host_vm) tt in
   let st1 := set_glob (set_glob (set_glob st0 (bs "len") (OClos false 0 [ONil])) (bs "sub") (OClos false 1 [ONil])) (bs "concat") (OClos false 2 [ONil]) in
   match run no_strtof_ no_powf (fun s => zlen s) (fun i => i) (functions host_script) string_cfun 2 host_script st1 with
   | Done st2 => string_is (s_glob st2 (bs "hello")) (bs "robot") /\
       match calls (at_most no_strtof_ no_powf (fun s => zlen s) (fun i => i) (functions host_script) string_cfun 2) [bs "step"; bs "step"] st2 with
       | Done ([o1; o2], st3) => string_is o1 (bs "obot") /\ string_is o2 (bs "bot") /\ s_glob st3 (bs "n") = OInt 10
       | _ => False
       end /\
       calls (at_most no_strtof_ no_powf (fun s => zlen s) (fun i => i) (functions host_script) string_cfun 2) [bs "step"; bs "n"] st2 = Fail E_TYPE
   | _ => False
   end) /\
  match (w <- execute_script (string_flist unit) no_powf (byte host_code) (zlen host_code) 100 host_vm ;;
         function_calls (string_flist unit) no_powf host_code 100 w [bs "step"; bs "step"]) with
  | Ok w => match v_stacks w with [[o2; o1]] => string_is o1 (bs "obot") /\ string_is o2 (bs "bot") | _ => False end
  | _ => False
  end.
Proof.
  split; [apply (script_of_ok _ _ 300); vm_compute; reflexivity|]. split; [vm_compute; reflexivity|]. split; [vm_compute; discriminate|].
  split; vm_compute; repeat split.
Qed.
