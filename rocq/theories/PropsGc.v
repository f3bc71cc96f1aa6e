(** Garbage collections do not change what a script does: C96. *)
From Verif Require Import Base ListLemmas Float Dict PDict Strman StrmanSpec Obj Instr Vm VmSpec GcSpec Gc GcProofs GcMark ObjProofs.
Local Open Scope Z_scope. Local Open Scope list_scope.

(** C96.  Take an execution without collections in which, at each step, the local variables have values, the
    string manager is sound and pushed strings are those of the bytecode.  Run the same steps with a collector
    called before each of them, which may keep things or do anything to what cannot be reached.  The outcome is
    the same: the states only differ by tables and strings that cannot be reached. *)
Theorem C96_collections_do_not_matter {X : Type} (xroots : X -> list obj) flist powf code size (gc : nat -> vm X -> res (vm X)) n v :
  Forall (respects xroots) flist ->
  (forall k w, slots_set w -> strings_ok (v_str w) -> exists g, gc k w = Ok g /\ keeps xroots w g) ->
  (forall j w, (j < n)%nat -> vm_steps flist powf code size j v = Ok w -> gc_fine code w) ->
  agree xroots (vm_steps flist powf code size n v) (gc_steps flist powf code size gc n v).
Proof. intros HF HG HA. apply steps_same; auto. apply keeps_refl. Qed.
Print Assumptions C96_collections_do_not_matter.

(** The collector is such a collector, whenever it runs and whatever becomes of the memory it frees. *)
Theorem C96_collector_keeps {X : Type} (xroots : X -> list obj) due junk (v : vm X) :
  slots_set v -> strings_ok (v_str v) -> exists g, vm_gc xroots due junk v = Ok g /\ keeps xroots v g.
Proof. apply gc_keeps. Qed.
Print Assumptions C96_collector_keeps.
(** A collection deletes every table and every string that cannot be reached (strings of the bytecode stay). *)
Theorem C96_collector_deletes {X : Type} (xroots : X -> list obj) junk (v g : vm X) : strings_ok (v_str v) -> vm_gc xroots true junk v = Ok g ->
  (forall a t, table_of (v_heap v) a = Some t -> ~ reached xroots v (OTab a) -> table_of (v_heap g) a = Some (junk t)) /\
  (forall i, ~ kept_string (v_str v) i -> (forall j s, reached xroots v (OStr j s) -> wrap16 j <> wrap16 i) -> string_of (v_str g) i = None).
Proof. apply gc_exact. Qed.
Print Assumptions C96_collector_deletes.

(** Executions with the collector, at any moments. *)
Corollary C96_execution {X : Type} (xroots : X -> list obj) flist powf code size (due : nat -> vm X -> bool) junk n v :
  Forall (respects xroots) flist ->
  (forall j w, (j < n)%nat -> vm_steps flist powf code size j v = Ok w -> gc_fine code w) ->
  agree xroots (vm_steps flist powf code size n v) (gc_steps flist powf code size (fun k w => vm_gc xroots (due k w) junk w) n v).
Proof. intros HF HA. apply C96_collections_do_not_matter; auto. intros k w H1 H2. apply gc_keeps; auto. Qed.
Print Assumptions C96_execution.

(** Case: a table is made and dropped, another is stored in a global variable; the collector runs
    before every step and deletes the first one. *)
Definition arg4 (i : Z) : list Z := [i; 0; 0; 0].
Definition demo : list Z := [opnum I_PUSHT; opnum I_POP] ++ (opnum I_PUSHS :: arg4 0) ++ [opnum I_PUSHT; opnum I_GSTORE; opnum I_NOP; opnum I_DONE].
Definition demo_code (i : Z) : Z := nth (Z.to_nat i) demo 0.
Definition demo_sm : strman := match sm_run sm_new [SmReg [120] true] with Ok (s, _) => s | _ => sm_new end.
Definition demo_vm : vm unit := set_state (set_str (vm_new tt) demo_sm) S_READY E_NONE.
Example C96_case :
  exists v g, vm_steps [] (lib_with fadd) demo_code 11 7 demo_vm = Ok v /\
    gc_steps [] (lib_with fadd) demo_code 11 (fun _ w => vm_gc (fun _ => []) true (fun _ => []) w) 7 demo_vm = Ok g /\
    v_state v = S_DONE /\ v_state g = S_DONE /\
    gsym_get (v_gsyms v) 0 = Some (OTab 1) /\ gsym_get (v_gsyms g) 0 = Some (OTab 1) /\ v_heap v = [tab_new; tab_new] /\ v_heap g = [[]; tab_new] /\
    (forall j w, (j < 7)%nat -> vm_steps [] (lib_with fadd) demo_code 11 j demo_vm = Ok w -> gc_fine demo_code w).
Proof.
  eexists _, _. split; [vm_compute; reflexivity|]. split; [vm_compute; reflexivity|]. do 6 (split; [reflexivity|]).
  intros j w Hj H. assert (HS : strings_ok demo_sm).
  { exists [SmReg [120] true], [SmId 0]. split; [cbn; split; [vm_compute; reflexivity|exact I]|vm_compute; reflexivity]. }
  do 7 (destruct j as [|j]; [match type of H with ?e = _ => let r := eval vm_compute in e in change e with r in H end; inversion H; subst; clear H;
    (split; [intros f Hf; exfalso; exact Hf|]); (split; [exact HS|]); intros [_ HA]; first [vm_compute in HA; discriminate HA | exists [120]; vm_compute; reflexivity]|]).
  lia.
Qed.
