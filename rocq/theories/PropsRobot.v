(** Histories that mix operations on stigmergies, on swarms and broadcasts, which share the queue of messages (C122), and the
    functions that scripts call in the course of them (C123). *)
From Coq Require Import String.
From Verif Require Import Base ListLemmas Float Dict DictSpec PDict DictProofs PDictKeys Strman StrmanSpec StrmanProofs Obj ObjSpec ObjProofs Instr Vm VmSpec VmProofs
  PropsVmData Text Lex LexSpec Asm AsmSpec Load PropsCompile PropsScript Strlib PropsSwarmExec WireProofs PropsStrlib TableLib TableLibProofs PropsTableLib CFunSpec CFunProofs Parser Source CompileSpec GcSpec HostSpec NeighborsVm NeighborsVmSpec NeighborsVmProofs PropsNeighborsAdd Register LibrarySpec PropsHost LibraryProofs StdSpec StdProofs Front FrontProofs Meaning PropsLibrary
  OutMsg OutMsgSpec Vstig VstigSpec VstigProofs Swarm SwarmSpec SwarmProofs SwarmVm SwarmVmSpec SwarmVmProofs PropsSwarmVm VstigVm VstigVmSpec VstigVmProofs PropsVstigVm Robot RobotSpec RobotProofs.
Local Open Scope Z_scope.
Local Open Scope list_scope.


(** ** C122 *)
(** Whatever a robot does with stigmergies and swarms, in any order, with broadcasts in between: nothing goes wrong, its
    stigmergies and what its calls on stigmergies return are as if it had done only the operations on stigmergies, its swarms and
    what its calls on swarms return are as if it had done only those on swarms, and the messages are those of one history of
    the queue, about which C23 to C26 speak. *)
Theorem C122_mixed_histories :
  forall fl sidof u robot ops,
  0 <= u < 65536 -> Forall (hop_ok fl sidof u) ops ->
  exists x rs, hrun (h_new robot) ops = Ok (x, rs) /\
    (exists s vs, vrun (vst_new robot) (stigmergy_part ops) = Ok (s, vs) /\
       h_robot x = st_robot s /\ h_vstigs x = st_vstigs s /\ stigmergy_results rs = map returns vs) /\
    (exists w ms, sw_run sw_new (swarm_part ops) = Ok (w, swarm_results rs, ms) /\ h_own x = sw_own w) /\
    (exists oo outs, Forall (oop_ok fl sidof u) oo /\ oq_run oq_new oo = Ok (h_out x, outs) /\ flat_map sent_by rs = concat outs).
Proof.
  intros fl sidof u robot ops Hu HF. destruct (mixed_new fl sidof u Hu robot ops HF) as (x & rs & s & vs & w & ws & ms & A1 & A2 & A3 & (R1 & R2 & _) & (R3 & _) & A4 & A5 & oo & outs & Q1 & Q2 & Q3).
  exists x, rs. split; [exact A1|]. split; [exists s, vs; auto|]. split; [exists w, ms; subst ws; auto|]. exists oo, outs. auto.
Qed.
Print Assumptions C122_mixed_histories.
Definition mixed_ops : list hop :=
  [HS (SCreate 3); HV (VCreate 1); HV (VPut 1 (OInt 5) (OInt 8)); HB (OInt 1) (OInt 2); HS (SJoin 3); HV VSend; HV (VGet 1 (OInt 5)); HS SSend; HS SPeriod; HS SSend; HV VSend; HS (SIn 3)].
Example C122_case :
  Forall (hop_ok true (fun _ => 0) 65535) mixed_ops /\
  match hrun (h_new 12) mixed_ops with
  | Ok (x, rs) => flat_map sent_by rs = [MBroadcast (OInt 1) (OInt 2); MPut 1 (OInt 5) {| ve_data := OInt 8; ve_ts := 1; ve_robot := 12 |}; MList [3]] /\
                  stigmergy_results rs = [RNone; RNone; RSent []; RVal (OInt 8); RSent []] /\ swarm_results rs = [SSwarm 3; SNone; SNone; SNone; SNone; SInt 1]
  | _ => False
  end.
Proof. split; [repeat constructor; discriminate|]. vm_compute. auto. Qed.

(** ** What calls leave alone *)
Section Leave.
Context {X : Type}.
Variable fid : string -> Z.
Variable vst : X -> vstate.
Variable put_vst : X -> vstate -> X.
Variable sw : X -> swst.
Variable put_sw : X -> swst -> X.
Notation sst := (sst X).
Implicit Types st : sst.
Variable P : X -> Prop.
Notation keep := (kp (X := X) (holds_of P)).
Notation keeps := (kp_out (X := X) (holds_of P)).
Lemma leave_vstig : (forall x s, P x -> P (put_vst x s)) -> forall e, In e (vstig_meanings fid vst put_vst) -> forall args st, keep st -> keeps (snd e args st).
Proof.
  intros HP e He args st K. cbn [vstig_meanings In] in He. repeat destruct He as [<-|He]; [..|destruct He]; cbn [snd].
  - destruct args as [|s [|x [|? ?]]]; try exact Logic.I. apply kp_int. intro z. cbv zeta. unfold new_vstig. eapply outs_bind; [apply kp_members|intros st2 K2; exact K2]. apply HP. exact K.
  - destruct args as [|s [|k [|x [|? ?]]]]; try exact Logic.I. apply kp_id; [exact K|]. intros id st1 K1. destruct (vs_put _ _ _ _) as [s1| | |] eqn:E; try exact Logic.I. apply HP. exact K1.
  - destruct args as [|s [|? ?]]; try exact Logic.I. apply kp_id; [exact K|]. intros id st1 K1. exact K1.
  - destruct args as [|s [|k [|? ?]]]; try exact Logic.I. apply kp_id; [exact K|]. intros id st1 K1. destruct (vs_get _ _ _) as [[s1 o]| | |] eqn:E; try exact Logic.I. apply HP. exact K1.
Qed.
Lemma leave_gives r st : (forall x s, P x -> P (put_sw x s)) -> keep st -> keeps (gives fid put_sw r st).
Proof.
  intros HP K. destruct r as [[s x]| | |]; try exact Logic.I. assert (K1 : keep (set_exts st (put_sw (s_ext st) s))) by (apply HP; exact K).
  unfold gives. destruct x as [| |z|id]; try exact Logic.I; try exact K1. unfold new_swarm. eapply outs_bind; [apply kp_members; exact K1|]. intros st2 K2. exact K2.
Qed.
Lemma leave_swarm : (forall x s, P x -> P (put_sw x s)) -> forall e, In e (swarm_meanings fid sw put_sw) -> forall args st, keep st -> keeps (snd e args st).
Proof.
  intros HP e He args st K.
  assert (M0 : forall f, keeps (sem_method0 fid sw put_sw f args st)).
  { intros f. destruct args as [|s [|? ?]]; try exact Logic.I. apply kp_id; [exact K|]. intros id st1 K1. apply leave_gives; assumption. }
  assert (MS : forall f, keeps (sem_setop fid sw put_sw f args st)).
  { intros f. destruct args as [|s [|i [|x [|y [|? ?]]]]]; try exact Logic.I. apply kp_int. intro z. apply kp_member; [exact K|]. intros a st1 K1. apply kp_member; [exact K1|]. intros b st2 K2. apply leave_gives; assumption. }
  cbn [swarm_meanings In] in He. repeat destruct He as [<-|He]; [..|destruct He]; cbn [snd]; try apply M0; try apply MS.
  - destruct args as [|s [|x [|? ?]]]; try exact Logic.I. apply kp_int. intro z. apply leave_gives; assumption.
  - destruct args as [|s [|x [|? ?]]]; try exact Logic.I. apply kp_id; [exact K|]. intros id st1 K1. destruct (sw_get _ _) as [y|]; [|exact Logic.I]. apply kp_int. intro z. apply leave_gives; assumption.
  - destruct args as [|s [|x [|? ?]]]; try exact Logic.I. apply kp_id; [exact K|]. intros id st1 K1. apply kp_int. intro z. apply leave_gives; assumption.
Qed.
End Leave.
Lemma hrun_app ops1 : forall x x1 rs1 ops2, hrun x ops1 = Ok (x1, rs1) -> hrun x (ops1 ++ ops2) = ('(x2, rs2) <- hrun x1 ops2 ;; Ok (x2, rs1 ++ rs2)).
Proof.
  induction ops1 as [|o ops1 IH]; intros x x1 rs1 ops2 H; cbn [hrun app] in *.
  - inversion H; subst. destruct (hrun x1 ops2) as [[]| | |]; reflexivity.
  - destruct (hstep x o) as [[x2 r]| | |]; cbn [bind] in *; try discriminate. destruct (hrun x2 ops1) as [[x3 rs]| | |] eqn:E; cbn [bind] in H; inversion H; subst.
    rewrite (IH _ _ _ ops2 E). destruct (hrun x1 ops2) as [[]| | |]; reflexivity.
Qed.

(** ** C123 *)
(** The robot has done any operations on stigmergies and swarms and any broadcasts, in any order [ops]; then a script calls a
    function on stigmergies ... *)
Theorem C123_stigmergy_calls :
  forall c fid fl sidof u robot ops rs name args (st : sst held) op,
  0 <= u < 65536 -> NoDup (map (fun e => fid (fst e)) (all_list fid h_vst h_put_vst h_sw h_put_sw c)) ->
  Forall (hop_ok fl sidof u) ops -> hrun (h_new robot) ops = Ok (s_ext st, rs) ->
  strings_ok (s_str st) -> sm_live (s_str st) + 7 < 65534 ->
  vstig_call st name args op -> vop_ok fl sidof op ->
  exists r o st', all_cfun fid h_vst h_put_vst h_sw h_put_sw c (fid name) args st = Done (o, st') /\ vreturned fid op r st o st' /\
    hrun (h_new robot) (ops ++ [HV op]) = Ok (s_ext st', rs ++ [RV r]) /\
    forall id k, op = VGet id k -> o = match entry (h_vst (s_ext st)) id k with Some e => ve_data e | None => ONil end.
Proof.
  intros c fid fl sidof u robot ops rs name args st op Hu HN HO HR HStr HL HC Hop.
  destruct (mixed_new fl sidof u Hu robot ops HO) as (x & rs0 & s & vs & w & ws & ms & A1 & A2 & _ & R & _). rewrite HR in A1. injection A1 as <- <-.
  assert (HF : Forall (vop_ok fl sidof) (stigmergy_part ops)). { clear - HO. induction HO as [|o ops H HO IH]; [constructor|]. destruct o; cbn; auto. }
  assert (HW : winv fl sidof s). { apply reachable_winv. exists robot, (stigmergy_part ops), vs. auto. }
  destruct (vstep_ok fl sidof s op HW Hop) as (s1 & r0 & ES & _). destruct (rel_step fl sidof u Hu s (h_vst (s_ext st)) op s1 r0 R Hop ES) as (s1' & r & ES' & _ & Hr & _).
  assert (HN0 : NoDup (map (fun e => fid (fst e)) (all_meanings (X := held) fid h_vst h_put_vst h_sw h_put_sw c))) by exact HN.
  assert (HRm : room_for vnames7 (s_str st)) by (apply room_live; [exact HStr|exact HL]).
  assert (HPV : forall x s, h_vst (h_put_vst x s) = s) by (intros x []; reflexivity).
  destruct (vcall_does fid h_vst h_put_vst HPV h_sw h_put_sw c st name args op s1' r HN0 HRm HC ES') as (o & st' & D1 & D2 & D3).
  assert (HK : h_own (s_ext st') = h_own (s_ext st)).
  { pose proof (leave_vstig fid h_vst h_put_vst (fun x => h_own x = h_own (s_ext st)) (fun x s H => H)) as HL'.
    assert (HM : exists m, In (name, m) (vstig_meanings fid h_vst h_put_vst)). { inversion HC; subst; eexists; cbn; eauto. }
    destruct HM as (m & Hm). specialize (HL' (name, m) Hm args st eq_refl). cbn [snd] in HL'. unfold all_cfun in D1. rewrite (found_in fid _ name m HN0) in D1 by (apply in_or_app; left; exact Hm). cbn [snd] in D1. rewrite D1 in HL'. exact HL'. }
  exists r, o, st'. split; [exact D1|]. split; [exact D3|]. split.
  - rewrite (hrun_app ops _ _ _ [HV op] HR). cbn [hrun hstep]. rewrite ES'. cbn [bind]. repeat f_equal. destruct (s_ext st') as [a b d e]. cbn in HK, D2. subst s1'. cbn. rewrite HK. reflexivity.
  - intros id k ->. cbn [vop_ok] in Hop. destruct (get_ok fl sidof _ id k HW Hop) as (s2 & G1 & _). cbn [vstep] in ES. rewrite G1 in ES. cbn [bind] in ES. injection ES as <- <-.
    cbn [returns] in Hr. destruct r; try discriminate Hr. injection Hr as ->. destruct D3 as (_ & _ & _ & _ & D). rewrite D. unfold entry. rewrite (rel_find fl sidof u s (h_vst (s_ext st)) id R). reflexivity.
Qed.
Print Assumptions C123_stigmergy_calls.
(** ... or on swarms: the call does what C116 and C120 say, and the robot holds what it holds after [ops] and the operation. *)
Theorem C123_swarm_calls :
  forall c fid fl sidof u robot ops rs name args (st : sst held) op,
  0 <= u < 65536 -> NoDup (map (fun e => fid (fst e)) (all_list fid h_vst h_put_vst h_sw h_put_sw c)) ->
  Forall (hop_ok fl sidof u) ops -> hrun (h_new robot) ops = Ok (s_ext st, rs) ->
  strings_ok (s_str st) -> sm_live (s_str st) + 7 < 65534 ->
  swarm_call st name args op -> swop_ok u op ->
  exists x, sres_ok (memb_run (swarm_part ops)) op x /\
    match x with
    | SErr => all_cfun fid h_vst h_put_vst h_sw h_put_sw c (fid name) args st = Fail E_SWARM
    | _ => exists o st', all_cfun fid h_vst h_put_vst h_sw h_put_sw c (fid name) args st = Done (o, st') /\ returned fid x st o st' /\
             hrun (h_new robot) (ops ++ [HS op]) = Ok (s_ext st', rs ++ [RS x []])
    end.
Proof.
  intros c fid fl sidof u robot ops rs name args st op Hu HN HO HR HStr HL HC Hop.
  destruct (mixed_new fl sidof u Hu robot ops HO) as (x & rs0 & s & vs & w & ws & ms & A1 & _ & A3 & _ & R & _). rewrite HR in A1. injection A1 as <- <-.
  assert (HF : Forall (swop_ok u) (swarm_part ops)). { clear - HO. induction HO as [|o ops H HO IH]; [constructor|]. destruct o; cbn; auto. }
  destruct (sw_run_ok u Hu (swarm_part ops) sw_new _ (swinv_new u) HF) as (w0 & ws0 & ms0 & oo & outs & E & I & _). rewrite A3 in E. injection E as <- <- <-.
  destruct (swinv_step u Hu _ _ op I Hop) as (w1 & x & ms' & _ & _ & ES & _ & HX & _). destruct (srel_step fl sidof u Hu w _ (h_sw (s_ext st)) op w1 x ms' I R Hop ES) as (w1' & ms2 & ES' & _).
  assert (ms2 = []) as ->.
  { inversion HC; subst; cbn [sw_step] in ES'; match type of ES' with (bind ?r _ = _) => destruct r as [[? ?]| | |]; inversion ES'; reflexivity end. }
  assert (HN0 : NoDup (map (fun e => fid (fst e)) (all_meanings (X := held) fid h_vst h_put_vst h_sw h_put_sw c))) by exact HN.
  assert (HRm : room_for names7 (s_str st)) by (apply room_live; [exact HStr|exact HL]).
  assert (HPS : forall x s, h_sw (h_put_sw x s) = s) by (intros y []; reflexivity).
  assert (HN' : NoDup (map (fun e => fid (fst e)) (swarm_meanings fid h_sw h_put_sw ++ std_meanings (X := held) c))).
  { assert (HN2 : NoDup (map (fun e => fid (fst e)) (vstig_meanings fid h_vst h_put_vst ++ swarm_meanings fid h_sw h_put_sw ++ std_meanings (X := held) c))) by exact HN. cbn [vstig_meanings app map] in HN2. do 4 (apply NoDup_cons_iff in HN2 as [_ HN2]). exact HN2. }
  assert (HM : exists m, In (name, m) (swarm_meanings fid h_sw h_put_sw)). { inversion HC; subst; eexists; cbn; eauto 12. }
  destruct HM as (m & Hm).
  assert (HC1 : all_cfun fid h_vst h_put_vst h_sw h_put_sw c (fid name) args st = m args st).
  { unfold all_cfun. rewrite (found_in fid _ name m HN0); [reflexivity|]. apply in_or_app; right. apply in_or_app; left; exact Hm. }
  assert (HC2 : lib_cfun fid h_sw h_put_sw c (fid name) args st = m args st).
  { unfold lib_cfun. rewrite (found_in fid _ name m HN'); [reflexivity|]. apply in_or_app; left; exact Hm. }
  pose proof (call_does fid h_sw h_put_sw HPS c st name args op HN' HRm HC w1' x ES') as HD. rewrite HC1. rewrite HC2 in HD. exists x. split; [exact HX|].
  assert (HE : forall o st', m args st = Done (o, st') -> h_sw (s_ext st') = w1' -> hrun (h_new robot) (ops ++ [HS op]) = Ok (s_ext st', rs ++ [RS x []])).
  { intros o st' D1 D2. pose proof (leave_swarm fid h_sw h_put_sw (fun y => h_robot y = h_robot (s_ext st) /\ h_vstigs y = h_vstigs (s_ext st)) (fun x s H => H) (name, m) Hm args st (conj eq_refl eq_refl)) as HK.
    cbn [snd] in HK. rewrite D1 in HK. destruct HK as [K1 K2]. change (h_robot (s_ext st') = h_robot (s_ext st)) in K1. change (h_vstigs (s_ext st') = h_vstigs (s_ext st)) in K2. rewrite (hrun_app ops _ _ _ [HS op] HR). cbn [hrun hstep]. rewrite ES'. cbn [bind]. repeat f_equal. destruct (s_ext st') as [a b d e]. cbn in K1, K2, D2. subst w1'. cbn. rewrite K1, K2. reflexivity. }
  destruct x; [exact HD| | |]; destruct HD as (o & st' & D1 & D2 & D3); exists o, st'; split; [exact D1|split; [exact D3|eapply HE; eauto]| exact D1|split; [exact D3|eapply HE; eauto]|exact D1|split; [exact D3|eapply HE; eauto]].
Qed.
Print Assumptions C123_swarm_calls.
(** A whole script that ends, after any history: its effect is that of some operations create, put, get and on swarms. *)
Theorem C123_scripts :
  forall c fid strtof powf sid ref fs n l robot ops rs (st st' : sst held),
  hrun (h_new robot) ops = Ok (s_ext st, rs) ->
  run strtof powf sid ref fs (all_cfun fid h_vst h_put_vst h_sw h_put_sw c) n l st = Done st' ->
  exists ops' rs', hrun (h_new robot) (ops ++ ops') = Ok (s_ext st', rs ++ rs') /\
    Forall (fun o => match o with HV o => vop_of_script o | HS o => of_script o | HB _ _ => False end) ops'.
Proof.
  intros c fid strtof powf sid ref fs n l robot ops rs st st' HR HE. apply C121_scripts_are_calls in HE. revert HR. generalize (s_ext st') (s_ext st) HE. clear. intros y x H. revert ops rs.
  induction H as [x|x y op s r H IH Ho E|x y op s r H IH Ho E]; intros ops rs HR.
  - exists [], []. rewrite !app_nil_r. auto.
  - destruct (IH ops rs HR) as (ops' & rs' & A & B). exists (ops' ++ [HV op]), (rs' ++ [RV r]). rewrite !app_assoc. rewrite (hrun_app _ _ _ _ [HV op] A). cbn [hrun hstep]. rewrite E. cbn [bind]. split; [reflexivity|]. apply Forall_app. auto.
  - destruct (IH ops rs HR) as (ops' & rs' & A & B). exists (ops' ++ [HS op]), (rs' ++ [RS r []]). rewrite !app_assoc. rewrite (hrun_app _ _ _ _ [HS op] A). cbn [hrun hstep]. rewrite E. cbn [bind]. split; [reflexivity|]. apply Forall_app. auto.
Qed.
Print Assumptions C123_scripts.
(** After [mixed_ops], which leave messages of both kinds in turn in the queue, a script reads the stigmergy 1 and asks whether the
    robot is in the swarm 1, which it has not created.  The script of [C119_C121_case] mixes both. *)
Definition mixed_st : sst held := mkSt (fun _ => ONil) [one_table] (fst one_key) (match hrun (h_new 12) mixed_ops with Ok (x, _) => x | _ => h_new 12 end).
Example C123_case :
  0 <= 65535 < 65536 /\ NoDup (map (fun e => vg_fid (fst e)) (all_list vg_fid h_vst h_put_vst h_sw h_put_sw demo_c)) /\
  Forall (hop_ok true (fun _ => 0) 65535) mixed_ops /\ ok_with (fun r => fst r = s_ext mixed_st) (hrun (h_new 12) mixed_ops) /\
  strings_ok (s_str mixed_st) /\ sm_live (s_str mixed_st) + 7 < 65534 /\
  vstig_call mixed_st "buzzvstig_get" [OTab 0; OInt 5] (VGet 1 (OInt 5)) /\ vop_ok true (fun _ => 0) (VGet 1 (OInt 5)) /\
  swarm_call mixed_st "buzzswarm_in" [OTab 0] (SIn 1) /\ swop_ok 65535 (SIn 1) /\
  match all_cfun vg_fid h_vst h_put_vst h_sw h_put_sw demo_c (vg_fid "buzzvstig_get") [OTab 0; OInt 5] mixed_st with Done (o, _) => o = OInt 8 | _ => False end /\
  all_cfun vg_fid h_vst h_put_vst h_sw h_put_sw demo_c (vg_fid "buzzswarm_in") [OTab 0] mixed_st = Fail E_SWARM.
Proof.
  assert (HI : has_id mixed_st (OTab 0) 1).
  { exists 0, one_table, 65537. split; [reflexivity|]. split; [lia|]. split; [reflexivity|]. split; [|reflexivity]. exists (snd one_key). vm_compute. repeat split; discriminate. }
  split; [lia|].
  split. { assert (H : nodup Z.eq_dec (map (fun e => vg_fid (fst e)) (all_list vg_fid h_vst h_put_vst h_sw h_put_sw demo_c)) = map (fun e => vg_fid (fst e)) (all_list vg_fid h_vst h_put_vst h_sw h_put_sw demo_c)) by (vm_compute; reflexivity). rewrite <- H. apply NoDup_nodup. }
  split; [repeat constructor; discriminate|]. split; [vm_compute; reflexivity|].
  split. { exists [SmReg (bs "id") true]. eexists. split; [|vm_compute; reflexivity]. split; [vm_compute; reflexivity|]. vm_compute. exact Logic.I. }
  split; [vm_compute; reflexivity|]. split; [apply Call_vget; exact HI|]. split; [reflexivity|]. split; [apply Call_in; exact HI|]. split; [cbn; lia|]. split; vm_compute; reflexivity.
Qed.
