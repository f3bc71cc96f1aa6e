(** The functions on virtual stigmergies do what VstigVmSpec.v says. *)
From Coq Require Import String.
From Verif Require Import Base ListLemmas Float Dict PDict Strman StrmanSpec StrmanProofs Obj ObjSpec ObjProofs Instr Vm VmSpec VmProofs PropsVmData Text CFunSpec CFunProofs Strlib PropsStrlib
  Source CompileSpec GcSpec HostSpec PropsHost NeighborsVm NeighborsVmProofs Register StdSpec StdProofs OutMsg Vstig Swarm SwarmExec SwarmVm SwarmVmSpec SwarmVmProofs VstigVm VstigVmSpec.
Local Open Scope Z_scope.
Local Open Scope list_scope.

Section Ok.
Context {X : Type}.
Variable fid : string -> Z.
Variable vst : X -> vstate.
Variable put_vst : X -> vstate -> X.
Variables (v : vm X) (st0 : sst X) (args : list obj) (ra : Z) (s : list obj) (rest : list (list obj)) (L : list lsyms) (sm0 : strman).
Hypotheses (HR : v_state v = S_READY) (HE : v_error v = E_NONE) (HS : v_stacks v = [] :: (OInt ra :: s) :: rest) (HL : v_lsymts v = mkLs (map Some args) false :: L).
Notation c_done := (c_done v st0 ra s rest L sm0).
Notation W := (W v).
Notation good := (good st0 sm0).

Lemma w_vtable st t id : good st -> c_done (v2 <- make_vstig_table fid (W st t) id ;; vm_ret1 v2) (new_vstig fid st id).
Proof.
  intro HG. unfold make_vstig_table, new_vstig. cbv zeta. change (vm_pusht (W st t)) with (W (set_tabs st (s_heap st ++ [tab_new])) (OTab (zlen (s_heap st)) :: t)).
  set (st1 := set_tabs st (s_heap st ++ [tab_new])). set (a := zlen (s_heap st)).
  pose proof (w_members fid v st0 sm0 a (vstig_members fid id) st1 t HG) as H. change (dup_registers (vstig_members fid id) (W st1 (OTab a :: t)))
    with (v1 <- dup_register (W st1 (OTab a :: t)) ("id"%string, OInt id) ;; dup_registers (methods_of fid "buzzvstig_" vstig_methods) v1) in H.
  destruct (new_members _ _ _) as [st2| | |]; try contradiction; [|exact I]. destruct H as (E & G & _). rewrite E. cbn [bind obind]. apply (w_ret1 v st0 args ra s rest L sm0 HR HE HS HL). exact G.
Qed.
Hypotheses (H1 : v_heap v = s_heap st0) (H2 : v_str v = s_str st0) (H3 : v_ext v = s_ext st0) (HK : keeping sm0 (v_str v)).
Notation g0 := (good0 v st0 sm0 H2 HK).
Notation num_is := (num_is v st0 args ra s rest L sm0 HR HE HS HL H1 H2 H3 HK).
Ltac args_of := destruct args as [|? [|? [|? [|? [|? ?]]]]]; try reflexivity; unfold zlen in *; cbn [length] in *; try lia.
Lemma c_vcreate : c_done (vm_vstig_create fid vst put_vst v) (sem_vcreate fid vst put_vst args st0).
Proof.
  apply (num_is 1 (fun v => int_arg v 1 (fun v1 z => let id := wrap16 z in let v2 := vm_pop v1 in
    v3 <- make_vstig_table fid (set_ext v2 (put_vst (v_ext v2) (vs_create (vst (v_ext v2)) id))) id ;; vm_ret1 v3))); unfold sem_vcreate.
  - intro HN. assert (exists a x, args = [a; x]) as (a & x & EA). { args_of. eauto. } rewrite EA at 1. cbv beta.
    apply (w_int v st0 args ra s rest L sm0 HL); [exact g0|lia|rewrite EA; reflexivity|]. intro z.
    change (vm_pop (W st0 [OInt z])) with (W st0 []). cbv zeta. change (wrap16 z) with (z mod 65536).
    apply (w_vtable (set_exts st0 (put_vst (s_ext st0) (vs_create (vst (s_ext st0)) (z mod 65536)))) []). exact g0.
  - intro HN. args_of.
Qed.
Lemma c_vput : c_done (vm_vstig_put vst put_vst v) (sem_vput vst put_vst args st0).
Proof.
  apply (num_is 2 (fun v => id_get v (fun v1 id => v2 <- vm_lload v1 1 ;; k <- stack_at v2 1 ;; v3 <- vm_lload v2 2 ;; o <- stack_at v3 1 ;;
    s <- vs_put (vst (v_ext v3)) id k o ;; vm_ret0 (set_ext v3 (put_vst (v_ext v3) s))))); unfold sem_vput.
  - intro HN. assert (exists a x y, args = [a; x; y]) as (a & x & y & EA). { args_of. eauto. } rewrite EA at 1. cbv beta.
    apply (w_id fid v st0 args ra s rest L sm0 HL); [exact g0|rewrite EA; reflexivity|]. intros id st' t' G E.
    rewrite (w_load v args L HL st' t' 1 x) by (try lia; rewrite EA; reflexivity). cbn [bind]. rewrite w_top. cbn [bind].
    rewrite (w_load v args L HL st' _ 2 y) by (try lia; rewrite EA; reflexivity). cbn [bind]. rewrite w_top. cbn [bind].
    change (v_ext (W st' (y :: x :: t'))) with (s_ext st'). destruct (vs_put _ _ _ _) as [s1| | |]; cbn [bind]; try exact I.
    apply (w_ret0 v st0 args ra s rest L sm0 HR HE HS HL (set_exts st' (put_vst (s_ext st') s1)) (y :: x :: t')). exact G.
  - intro HN. args_of.
Qed.
Lemma c_vsize : c_done (vm_vstig_size vst v) (sem_vsize vst args st0).
Proof.
  apply (num_is 0 (fun v => id_get v (fun v1 id => vm_ret1 (push v1 (OInt (sign32 (vs_size (vst (v_ext v1)) id))))))); unfold sem_vsize.
  - intro HN. assert (exists a, args = [a]) as (a & EA). { args_of. eauto. } rewrite EA at 1. cbv beta.
    apply (w_id fid v st0 args ra s rest L sm0 HL); [exact g0|rewrite EA; reflexivity|]. intros id st' t' G E. rewrite w_push. apply (w_ret1 v st0 args ra s rest L sm0 HR HE HS HL). exact G.
  - intro HN. args_of.
Qed.
Lemma c_vget : c_done (vm_vstig_get vst put_vst v) (sem_vget vst put_vst args st0).
Proof.
  apply (num_is 1 (fun v => id_get v (fun v1 id => v2 <- vm_lload v1 1 ;; k <- stack_at v2 1 ;; '(s, o) <- vs_get (vst (v_ext v2)) id k ;;
    vm_ret1 (push (set_ext v2 (put_vst (v_ext v2) s)) o)))); unfold sem_vget.
  - intro HN. assert (exists a x, args = [a; x]) as (a & x & EA). { args_of. eauto. } rewrite EA at 1. cbv beta.
    apply (w_id fid v st0 args ra s rest L sm0 HL); [exact g0|rewrite EA; reflexivity|]. intros id st' t' G E.
    rewrite (w_load v args L HL st' t' 1 x) by (try lia; rewrite EA; reflexivity). cbn [bind]. rewrite w_top. cbn [bind].
    change (v_ext (W st' (x :: t'))) with (s_ext st'). destruct (vs_get _ _ _) as [[s1 o]| | |]; cbn [bind]; try exact I.
    apply (w_ret1 v st0 args ra s rest L sm0 HR HE HS HL (set_exts st' (put_vst (s_ext st') s1)) (x :: t')). exact G.
  - intro HN. args_of.
Qed.
End Ok.

Lemma vstig_means X fid vst put_vst : Forall2 (fun (e : string * (vm X -> res (vm X))) m => fst e = fst m /\ means (snd e) (snd m)) (vstig_list fid vst put_vst) (vstig_meanings fid vst put_vst).
Proof.
  repeat (constructor; [split; [reflexivity|]; cbn [snd]; intros v st args ra s rest L sm0 HR HE HS HL H1 H2 H3 HK|]); [..|constructor].
  - apply c_vcreate; auto. - apply c_vput; auto. - apply c_vsize; auto. - apply c_vget; auto.
Qed.
Theorem all_ok X c fid vst put_vst sw put_sw (flist : list (vm X -> res (vm X))) sm0 : all_registered fid vst put_vst sw put_sw c flist -> c_functions flist (keeping sm0) (all_cfun fid vst put_vst sw put_sw c).
Proof. intro HG. exact (found_ok X fid flist sm0 _ _ HG (Forall2_app (vstig_means X fid vst put_vst) (Forall2_app (swarm_means X fid sw put_sw) (std_means X c)))). Qed.
