(** neighbors.broadcast does what BroadcastVmSpec.v says. *)
From Coq Require Import String.
From Verif Require Import Base ListLemmas Float Dict PDict Strman StrmanSpec StrmanProofs Obj ObjSpec ObjProofs Instr Vm VmSpec VmProofs PropsVmData Text CFunSpec CFunProofs Strlib PropsStrlib
  Source CompileSpec GcSpec HostSpec PropsHost NeighborsVm NeighborsVmProofs Register StdSpec StdProofs OutMsg Vstig Swarm SwarmExec SwarmVm SwarmVmSpec SwarmVmProofs VstigVm VstigVmSpec VstigVmProofs Robot BroadcastVm BroadcastVmSpec.
Local Open Scope Z_scope.
Local Open Scope list_scope.

Section Ok.
Variable clone : list table -> obj -> res (list table * obj).
Hypothesis HC : clones clone.
Variables (v : vm held) (st0 : sst held) (args : list obj) (ra : Z) (s : list obj) (rest : list (list obj)) (L : list lsyms) (sm0 : strman).
Hypotheses (HR : v_state v = S_READY) (HE : v_error v = E_NONE) (HS : v_stacks v = [] :: (OInt ra :: s) :: rest) (HL : v_lsymts v = mkLs (map Some args) false :: L).
Notation c_done := (c_done v st0 ra s rest L sm0).
Notation W := (W v).
Hypotheses (H1 : v_heap v = s_heap st0) (H2 : v_str v = s_str st0) (H3 : v_ext v = s_ext st0) (HK : keeping sm0 (v_str v)).
Notation g0 := (good0 v st0 sm0 H2 HK).
Notation num_is := (num_is v st0 args ra s rest L sm0 HR HE HS HL H1 H2 H3 HK).
Ltac args_of := destruct args as [|? [|? [|? [|? [|? ?]]]]]; try reflexivity; unfold zlen in *; cbn [length] in *; try lia.
Lemma c_broadcast : c_done (vm_broadcast h_out h_put_out clone v) (sem_broadcast args st0).
Proof.
  apply (num_is 2 (fun v => v1 <- vm_lload v 1 ;; type_assert v1 1 T_STRING (v2 <- vm_lload v1 2 ;; t <- stack_at v2 2 ;; o <- stack_at v2 1 ;;
    '(h1, t') <- clone (v_heap v2) t ;; '(h2, o') <- clone h1 o ;; let v3 := set_heap v2 h2 in
    vm_ret0 (set_ext v3 (h_put_out (v_ext v3) (append_broadcast (h_out (v_ext v3)) t' o')))))); unfold sem_broadcast.
  - intro HN. assert (exists a x y, args = [a; x; y]) as (a & x & y & EA). { args_of. eauto. } rewrite EA at 1. cbv beta.
    rewrite (w_load v args L HL st0 [] 1 x) by (try lia; rewrite EA; reflexivity). cbn [bind]. unfold type_assert. rewrite w_top. cbn [bind].
    destruct x as [| | |i tx| | |]; try solve [apply done_err]. change (otype (OStr i tx) =? T_STRING) with true. cbv iota.
    rewrite (w_load v args L HL st0 _ 2 y) by (try lia; rewrite EA; reflexivity). cbn [bind]. change (stack_at (W st0 [y; OStr i tx]) 2) with (Ok (OStr i tx)). cbn [bind]. rewrite w_top. cbn [bind].
    rewrite (HC _ (OStr i tx) I). cbn [bind].
    assert (HD : forall y, scalar y -> c_done ('(h2, o') <- clone (v_heap (W st0 [y; OStr i tx])) y ;; let v3 := set_heap (W st0 [y; OStr i tx]) h2 in
        vm_ret0 (set_ext v3 (h_put_out (v_ext v3) (append_broadcast (h_out (v_ext v3)) (OStr i tx) o')))) (Done (ONil, set_exts st0 (h_put_out (s_ext st0) (append_broadcast (h_out (s_ext st0)) (OStr i tx) y))))).
    { intros z Hz. rewrite (HC _ z Hz). cbn [bind]. cbv zeta.
      exact (w_ret0 v st0 args ra s rest L sm0 HR HE HS HL (set_exts st0 (h_put_out (s_ext st0) (append_broadcast (h_out (s_ext st0)) (OStr i tx) z))) [z; OStr i tx] g0). }
    destruct y; try exact I; apply HD; exact I.
  - intro HN. args_of.
Qed.
End Ok.
Theorem robot_ok c fid clone flist sm0 : clones clone -> robot_registered fid clone c flist -> c_functions flist (keeping sm0) (robot_cfun fid c).
Proof.
  intros HC HG. refine (found_ok held fid flist sm0 _ _ HG _). constructor.
  - split; [reflexivity|]. cbn [snd]. intros v st args ra s rest L sm1 HR HE HS HL H1 H2 H3 HK. apply c_broadcast; auto.
  - exact (Forall2_app (vstig_means held fid h_vst h_put_vst) (Forall2_app (swarm_means held fid h_sw h_put_sw) (std_means held c))).
Qed.
