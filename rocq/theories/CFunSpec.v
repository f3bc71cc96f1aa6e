(** Specification vocabulary for C functions called from scripts. *)
From Verif Require Import Base Float Dict PDict Strman StrmanSpec Obj Instr Vm VmSpec.

(** The strings of the VM: a string manager as operations make it, not full. *)
Definition good_strings (sm : strman) : Prop :=
  (exists ops outs, sm_run sm_new ops = Ok (sm, outs) /\ smhist_ok sm_new ops) /\ sm_live sm < 65534.

(** A C function was called with arguments [args] by code that continues at [ra] with [s] on its
    operand stack; [rest] and [L] belong to the callers. *)
Record called {X} (v : vm X) (args : list obj) (ra : Z) (s : list obj) (rest : list (list obj)) (L : list lsyms) : Prop := {
  ca_stacks : v_stacks v = [] :: (OInt ra :: s) :: rest;
  ca_locals : exists self, v_lsymts v = mkLs (map Some (self :: args)) false :: L;
  ca_ready : v_state v = S_READY
}.
(** The function returned [r]: the caller goes on, with [r] on its operand stack; nothing else
    changed, except that strings may have been added. *)
Record gives {X} (v : vm X) (ra : Z) (s : list obj) (rest : list (list obj)) (L : list lsyms) (r : obj) (v' : vm X) : Prop := {
  gv_pc : v_pc v' = ra;
  gv_stacks : v_stacks v' = (r :: s) :: rest;
  gv_locals : v_lsymts v' = L;
  gv_ready : v_state v' = S_READY;
  gv_gsyms : v_gsyms v' = v_gsyms v;
  gv_heap : v_heap v' = v_heap v;
  gv_swstk : v_swstk v' = v_swstk v;
  gv_ext : v_ext v' = v_ext v;
  gv_strings : forall i t, 0 <= i < 65536 -> sm_get (v_str v) i = Some t -> sm_get (v_str v') i = Some t
}.
(** A string object of the VM. *)
Definition a_string_of {X} (v : vm X) (r : obj) (t : str) : Prop :=
  exists id, r = OStr id t /\ 0 <= id < 65536 /\ sm_get (v_str v) id = Some t.
(** The function stopped with an error. *)
Definition fails {X} (v' : vm X) (e : verr) : Prop := v_state v' = S_ERROR /\ v_error v' = e.
