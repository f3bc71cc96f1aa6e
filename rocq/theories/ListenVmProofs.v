(** neighbors.listen, neighbors.ignore and neighbors.broadcast do what ListenVmSpec.v says. *)
From Coq Require Import String.
From Verif Require Import Base ListLemmas Float Dict PDict Strman StrmanSpec StrmanProofs Obj ObjSpec ObjProofs Instr Vm VmSpec VmProofs PropsVmData Text CFunSpec CFunProofs Strlib PropsStrlib
  Source CompileSpec GcSpec HostSpec PropsHost NeighborsVm NeighborsVmProofs Register StdSpec StdProofs OutMsg Swarm SwarmExec SwarmVm SwarmVmSpec SwarmVmProofs Listen ListenSpec ListenVmSpec.
Local Open Scope Z_scope.
Local Open Scope list_scope.

Section Ok.
Variables (v : lvm) (st0 : sst lext) (args : list obj) (ra : Z) (s : list obj) (rest : list (list obj)) (L : list lsyms) (sm0 : strman).
Hypotheses (HR : v_state v = S_READY) (HE : v_error v = E_NONE) (HS : v_stacks v = [] :: (OInt ra :: s) :: rest) (HL : v_lsymts v = mkLs (map Some args) false :: L).
Notation c_done := (c_done v st0 ra s rest L sm0).
Notation W := (W v).
Hypotheses (H1 : v_heap v = s_heap st0) (H2 : v_str v = s_str st0) (H3 : v_ext v = s_ext st0) (HK : keeping sm0 (v_str v)).
Notation g0 := (good0 v st0 sm0 H2 HK).
Notation num_is := (num_is v st0 args ra s rest L sm0 HR HE HS HL H1 H2 H3 HK).
Ltac args_of := destruct args as [|? [|? [|? [|? [|? ?]]]]]; try reflexivity; unfold zlen in *; cbn [length] in *; try lia.
Lemma c_listen : c_done (nb_listen v) (sem_listen args st0).
Proof.
  apply (num_is 2 (fun v => v1 <- vm_lload v 1 ;; type_assert v1 1 T_STRING (v2 <- vm_lload v1 2 ;; type_assert v2 1 T_CLOSURE (t <- stack_at v2 2 ;; c <- stack_at v2 1 ;;
    match t with OStr sid _ => vm_ret0 (set_ext v2 (set_listen (v_ext v2) (lis_set (lx_listen (v_ext v2)) sid c))) | _ => UB end)))); unfold sem_listen.
  - intro HN. assert (exists a x y, args = [a; x; y]) as (a & x & y & EA). { args_of. eauto. } rewrite EA at 1. cbv beta.
    rewrite (w_load v args L HL st0 [] 1 x) by (try lia; rewrite EA; reflexivity). cbn [bind]. unfold type_assert at 1. rewrite w_top. cbn [bind].
    destruct x as [| | |i tx| | |]; try solve [apply done_err]. change (otype (OStr i tx) =? T_STRING) with true. cbv iota.
    rewrite (w_load v args L HL st0 _ 2 y) by (try lia; rewrite EA; reflexivity). cbn [bind]. unfold type_assert. rewrite w_top. cbn [bind].
    destruct y as [| | | | |n r act|]; try solve [apply done_err]. change (otype (OClos n r act) =? T_CLOSURE) with true. cbv iota.
    change (stack_at (W st0 [OClos n r act; OStr i tx]) 2) with (Ok (OStr i tx)). cbn [bind]. destruct (_ && _); [|exact I].
    exact (w_ret0 v st0 args ra s rest L sm0 HR HE HS HL (with_listeners st0 (LListen i (OClos n r act))) [OClos n r act; OStr i tx] g0).
  - intro HN. args_of; destruct o0; reflexivity.
Qed.
Lemma c_ignore : c_done (nb_ignore v) (sem_ignore args st0).
Proof.
  apply (num_is 1 (fun v => v1 <- vm_lload v 1 ;; type_assert v1 1 T_STRING (t <- stack_at v1 1 ;;
    match t with OStr sid _ => vm_ret0 (set_ext v1 (set_listen (v_ext v1) (lis_remove (lx_listen (v_ext v1)) sid))) | _ => UB end))); unfold sem_ignore.
  - intro HN. assert (exists a x, args = [a; x]) as (a & x & EA). { args_of. eauto. } rewrite EA at 1. cbv beta.
    rewrite (w_load v args L HL st0 [] 1 x) by (try lia; rewrite EA; reflexivity). cbn [bind]. unfold type_assert. rewrite w_top. cbn [bind].
    destruct x as [| | |i tx| | |]; try solve [apply done_err]. change (otype (OStr i tx) =? T_STRING) with true. cbv iota.
    destruct (_ && _); [|exact I].
    exact (w_ret0 v st0 args ra s rest L sm0 HR HE HS HL (with_listeners st0 (LIgnore i)) [OStr i tx] g0).
  - intro HN. args_of; destruct o0; reflexivity.
Qed.
Lemma c_send k : c_done (nb_broadcast k v) (sem_send k args st0).
Proof.
  apply (num_is 2 (fun v => v1 <- vm_lload v 1 ;; type_assert v1 1 T_STRING (v2 <- vm_lload v1 2 ;; t <- stack_at v2 2 ;; o <- stack_at v2 1 ;;
    t' <- snapshot k (v_heap v2) t ;; o' <- snapshot k (v_heap v2) o ;; vm_ret0 (set_ext v2 (set_out (v_ext v2) (lx_out (v_ext v2) ++ [(t', o')])))))); unfold sem_send.
  - intro HN. assert (exists a x y, args = [a; x; y]) as (a & x & y & EA). { args_of. eauto. } rewrite EA at 1. cbv beta.
    rewrite (w_load v args L HL st0 [] 1 x) by (try lia; rewrite EA; reflexivity). cbn [bind]. unfold type_assert. rewrite w_top. cbn [bind].
    destruct x as [| | |i tx| | |]; try solve [apply done_err]. change (otype (OStr i tx) =? T_STRING) with true. cbv iota.
    rewrite (w_load v args L HL st0 _ 2 y) by (try lia; rewrite EA; reflexivity). cbn [bind]. change (stack_at (W st0 [y; OStr i tx]) 2) with (Ok (OStr i tx)). cbn [bind]. rewrite w_top. cbn [bind].
    change (v_heap (W st0 [y; OStr i tx])) with (s_heap st0).
    destruct (snapshot k (s_heap st0) (OStr i tx)) as [t'| | |]; try exact I. cbn [bind]. destruct (snapshot k (s_heap st0) y) as [w| | |]; try exact I. cbn [bind].
    exact (w_ret0 v st0 args ra s rest L sm0 HR HE HS HL (with_broadcast st0 (t', w)) [y; OStr i tx] g0).
  - intro HN. args_of; destruct o0; reflexivity.
Qed.
End Ok.
Theorem listen_ok k c fid flist sm0 : listen_registered fid k c flist -> c_functions flist (keeping sm0) (listen_cfun fid k c).
Proof.
  intros HG. refine (found_ok lext fid flist sm0 _ _ HG _). constructor; [|constructor; [|constructor]].
  - split; [reflexivity|]. cbn [snd]. intros v st args ra s rest L sm1 HR HE HS HL H1 H2 H3 HK. apply c_listen; auto.
  - split; [reflexivity|]. cbn [snd]. intros v st args ra s rest L sm1 HR HE HS HL H1 H2 H3 HK. apply c_ignore; auto.
  - split; [reflexivity|]. cbn [snd]. intros v st args ra s rest L sm1 HR HE HS HL H1 H2 H3 HK. apply c_send; auto.
  - exact (std_means lext c).
Qed.
