(** The functions of a script as listeners: called with arguments when the script has ended (C128). *)
From Coq Require Import String.
From Verif Require Import Base ListLemmas Float Dict PDict Strman StrmanSpec StrmanProofs Obj Instr Vm VmSpec VmProofs VmFrames PropsVmData PropsVmFrames CFunSpec CFunProofs Strlib PropsStrlib Text Lex LexSpec Asm AsmSpec Load Parser Source CompileSpec Meaning GenRun GcSpec HostSpec PropsLex PropsCompile PropsScript Front FrontProofs PropsHost.
Local Open Scope Z_scope. Local Open Scope list_scope.

(** buzzvm_closure_call with three arguments: the function is entered, and the loop runs until it returned. *)
Lemma closure_enters3 X flist powf code (v : vm X) r cap a b c s : v_state v = S_READY -> v_stacks v = [s] ->
  exists v2, v_state v2 = S_READY /\ v_pc v2 = r /\ v_stacks v2 = [[]; OInt (v_pc v) :: s] /\ v_lsymts v2 = mkLs (map Some (cap ++ [a; b; c])) false :: v_lsymts v /\
    v_gsyms v2 = v_gsyms v /\ v_heap v2 = v_heap v /\ v_str v2 = v_str v /\ v_ext v2 = v_ext v /\ v_error v2 = v_error v /\
    forall fuel, closure_call flist powf (byte code) (zlen code) fuel (push (push (push (push v (OClos true r cap)) a) b) c) 3 = step_until flist powf (byte code) (zlen code) fuel (zlen [OInt (v_pc v) :: s]) v2.
Proof.
  intros U1 U2. unfold closure_call. set (u := push _ c).
  assert (Hst : stack u = c :: b :: a :: OClos true r cap :: s) by (unfold u, push, stack; cbn; rewrite U2; reflexivity).
  rewrite Hst. replace (zlen (c :: b :: a :: OClos true r cap :: s) <? 3 + 1) with false by (unfold zlen; cbn [length]; lia). change (Z.to_nat (3 + 1)) with 4%nat. cbn [firstn skipn app].
  set (v1 := push _ (OInt 3)). assert (S1 : stack v1 = OInt 3 :: c :: b :: a :: OClos true r cap :: ONil :: s) by reflexivity.
  assert (EC : vm_call flist v1 false = Ok (set_pc (set_oldpc (set_stacks (set_lsymts v1 (mkLs (map Some (cap ++ [a; b; c])) false :: v_lsymts v1)) [[]; OInt (v_pc v1) :: s]) (v_pc v1)) r)).
  { unfold vm_call, stack_assert, type_assert, stack_at. rewrite S1. set (s0 := c :: b :: a :: OClos true r cap :: ONil :: s).
    replace (zlen (OInt 3 :: s0) - 1 <? 0) with false by (unfold zlen; cbn [length]; lia).
    change (1 <=? 1) with true. change (nth_error (OInt 3 :: s0) (Z.to_nat (1 - 1))) with (Some (OInt 3)). cbn [bind otype]. rewrite Z.eqb_refl.
    change (3 + 1 >=? 2 ^ 31) with false. cbv iota. change (stack (set_stack v1 s0)) with s0.
    replace (zlen s0 - (3 + 1) <? 0) with false by (unfold s0, zlen; cbn [length]; lia).
    unfold s0, v1, u. cbn. rewrite ?U2, ?map_app. reflexivity. }
  rewrite EC. cbn [bind]. match type of EC with _ = Ok ?w => exists w end. split; [exact U1|]. split; [reflexivity|]. split; [reflexivity|]. split; [reflexivity|].
  do 5 (split; [reflexivity|]). intro fuel. f_equal. unfold zlen. cbn. rewrite U2. reflexivity.
Qed.

(** A listener, or another function of the script that a C function calls with three arguments, when the script or a function the host
    called has ended: the call gives the value and the state that the language says of the function applied to those arguments, stops with the error
    the language says, or never returns. *)
Theorem C128_listener_calls :
  forall strtof open name path text ps ts l,
  open name = Some (path, text) -> text ++ [NL] = layout ps -> reads open [path] path [] ps ts ->
  (forall t, In t ts -> t_line t < 2 ^ 63 /\ t_col t < 2 ^ 63 /\ plain_path (t_file t)) ->
  spells_script ts l -> ok_script strtof l = true ->
  NoDup (map fn_id (functions l)) -> zlen (nodup (list_eq_dec Z.eq_dec) (words l)) <= 65534 ->
  exists k0 asm, (forall k, (k0 <= k)%nat -> bzzparse open k [] name = Ok (Some asm)) /\
  (zlen asm < 2 ^ 31 ->
   exists code dbg sid ref,
     buzz_asm strtof asm = Ok (0, code, dbg) /\
     (forall f h, In f (functions l) -> In h (functions l) -> ref (fn_id f) = ref (fn_id h) -> f = h) /\
     exists m, forall X (x : X) flist powf fuel, (m <= fuel)%nat ->
     exists v, load_code flist powf code fuel (vm_new x) = Ok (v, true) /\
       prepared (keeping (v_str v)) sid (words l) v v (start ref l (v_str v) x) /\
       forall cfun, c_functions flist (keeping (v_str v)) cfun -> Forall c_function_ok flist ->
       (forall v1 st, prepared (keeping (v_str v)) sid (words l) v v1 st ->
         forall n, executes code (keeping (v_str v)) sid (words l) (fun fuel => execute_script flist powf (byte code) (zlen code) fuel v1)
                      (run strtof powf sid ref (functions l) cfun n l st)) /\
       forall w st s r cap a b c, waiting code (keeping (v_str v)) sid (words l) w st s -> v_state w = S_READY ->
         (forall n, answers code (keeping (v_str v)) sid (words l) s
                      (fun fuel => closure_call flist powf (byte code) (zlen code) fuel (push (push (push (push w (OClos true r cap)) a) b) c) 3)
                      (call (at_most strtof powf sid ref (functions l) cfun n) (OClos true r cap) [a; b; c] st)) /\
         ((forall n, call (at_most strtof powf sid ref (functions l) cfun n) (OClos true r cap) [a; b; c] st = More) ->
          forall fuel, closure_call flist powf (byte code) (zlen code) fuel (push (push (push (push w (OClos true r cap)) a) b) c) 3 = Hang)).
Proof.
  intros strtof open name path text ps ts l HO HT HR HP HS HOK HID HW.
  destruct (C54_tokens_partial open name path text ps ts HO HT HR) as (lx & n0 & HN & HL).
  assert (HF : Forall fine_token (filter no_statend ts)).
  { apply Forall_forall. intros t Ht. apply filter_In in Ht. destruct Ht as [Ht Hs]. pose proof (reads_lexed _ _ _ _ _ _ HR) as HX. rewrite Forall_forall in HX. destruct (HX t Ht) as (A & B & C & D).
    destruct (HP t Ht) as (P1 & P2 & P3 & P4). split; auto. split; [intro E; unfold no_statend in Hs; rewrite E in Hs; discriminate|]. split; auto. cbn [dbg_ok]. split; [lia|]. split; [lia|]. split; auto. }
  destruct (compiled strtof ts false l HS HOK HF HID ltac:(lia)) as (k0 & asm & HC & H). exists (Nat.max n0 k0), asm. split.
  { intros k Hk. unfold bzzparse. rewrite HN, HL by lia. cbn [bind]. apply HC. lia. }
  intro HA. destruct (H HA) as (code & dbg & sid & ref & H1 & H2 & HR0 & m & H3). exists code, dbg, sid, ref. split; auto. split; auto. exists m. intros X x flist powf fuel Hf.
  destruct (H3 X x flist powf fuel Hf) as (v & V1 & V2 & V3 & V4 & V5 & V6 & V7 & V8 & _ & HG). exists v. split; auto. split; [apply prepared_keeping; auto|].
  intros cfun Hc HCok. destruct (HG (keeping (v_str v)) cfun Hc) as [HG1 HG2]. split.
  - intros v1 st HPr n. pose proof (HG1 v1 st HPr n) as HD. pose proof HPr as (B1 & B2 & B3 & B4 & B5).
    destruct (run strtof powf sid ref (functions l) cfun n l st) as [st'|e| |] eqn:ER; cbn [executes does_path] in *; auto.
    + destruct HD as (k & v' & [D1 _] & D2 & D3 & D4 & D5 & D6 & D7 & D8 & D9 & D10 & D11 & D12 & D13). exists (S k), v'. split; [intros f Hff; eapply execute_steps; eauto; congruence|].
      split; [exact D2|]. split; [auto|]. split; [exact D10|]. split; [exact D11|]. split; [congruence|]. split; [congruence|]. destruct B5 as (_ & _ & _ & _ & _ & _ & _ & B6).
      split; [exact D3|]. split; [exact D12|]. split; [auto|]. split; [auto|]. split; [auto|]. split; [intros y Hy; symmetry; auto|]. split; auto.
    + destruct HD as (k & v' & [D1 _] & D2 & D3). exists (S k), v'. split; [|auto]. intros f Hff. eapply execute_steps; eauto. congruence.
  - intros v1 st s r cap a b c (W1 & W2 & W3 & W4 & W5 & W6) WR. pose proof W6 as (A1 & A2 & A3 & A4 & A5 & A6 & A7 & A8).
    destruct (closure_enters3 X flist powf code v1 r cap a b c s WR W4) as (v2 & S1 & S2 & S3 & S4 & S5 & S6 & S7 & S8 & S9 & HFC).
    rewrite W5 in S4.
    assert (HAg : agrees (keeping (v_str v)) sid (words l) v2 st).
    { split; [congruence|]. split; [congruence|]. do 3 (split; [congruence|]). split; [|split; [congruence|auto]]. intros y Hy. unfold global. rewrite S5. apply (A6 y Hy). }
    pose proof (fun n => HG2 v2 st r cap [a; b; c] (v_pc v1) s [] [] n W3 S1 S2 S3 S4 (fun _ F => match F with end) HAg) as HN3.
    assert (HB : below [OInt (v_pc v1) :: s] [] v2) by (exists [[]], [mkLs (map Some (cap ++ [a; b; c])) false]; rewrite S3, S4; repeat split; discriminate).
    split.
    + intros [|n]; [exact I|]. specialize (HN3 n). destruct (call _ _ _ _) as [[o st']|e| |] eqn:EC; cbn [answers]; auto.
      * destruct HN3 as (k & v' & K1 & K2 & K3 & K4 & K5 & K6).
        destruct (until_steps flist powf code HCok (v_pc v1) s [] [] W2 k v2 v' HB S1 K1) as (m1 & Hm1); [right; split; [auto|rewrite K4; unfold zlen; cbn [length]; lia]|].
        exists m1, v'. split; [intros fu Hfu; rewrite HFC; apply Hm1; lia|]. split; [exact K2|]. split; [auto|]. rewrite K3. split; [exact W2|]. split; [exact W3|]. split; [exact K4|]. split; [exact K5|]. exact K6.
      * destruct HN3 as (k & v' & K1 & K2 & K3).
        destruct (until_steps flist powf code HCok (v_pc v1) s [] [] W2 k v2 v' HB S1 K1) as (m1 & Hm1); [left; exact K2|].
        exists m1, v'. split; [intros fu Hfu; rewrite HFC; apply Hm1; lia|]. auto.
    + intros HM fu. rewrite HFC. apply (until_hangs flist powf code HCok (v_pc v1) s [] [] W2 fu v2 HB S1). intro n. specialize (HN3 n). rewrite (HM (S n)) in HN3.
      destruct HN3 as (k & v' & K0 & K1 & K2). exists k, v'. auto.
Qed.
Print Assumptions C128_listener_calls.
