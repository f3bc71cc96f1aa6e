(** Model of the functions that scripts call on virtual stigmergies (src/buzz/buzzvstig.c), as C functions of the virtual machine.
    What they do to vm->vstigs and to the queue of messages is in Vstig.v; here are the arguments, the tables that stand for
    stigmergies, the errors and the values returned.  Not modelled: foreach, which calls closures while it goes through the
    entries, and onconflict and onconflictlost, whose closures are called when messages come in. *)
From Coq Require Import String.
From Verif Require Import Base Float Dict PDict Strman Obj Instr Vm Text Strlib NeighborsVm Register OutMsg Vstig SwarmExec SwarmVm.
Local Open Scope Z_scope.
Local Open Scope list_scope.

Section VstigVm.
Context {X : Type}.
Notation vm := (vm X).
Implicit Types v : vm.
(** The numbers of the C functions among the registered ones, as in Register.v. *)
Variable fid : string -> Z.
(** vm->robot, vm->vstigs and vm->outmsgs in the rest of the state. *)
Variable vst : X -> vstate.
Variable put_vst : X -> vstate -> X.

(** The table of a stigmergy, buzzvstig.c 170-183: the id comes first. *)
Definition vstig_methods : list string := ["foreach"; "size"; "put"; "get"; "onconflict"; "onconflictlost"]%string.
Definition make_vstig_table v (id : Z) : res vm :=
  v1 <- dup_register (vm_pusht v) ("id"%string, OInt id) ;;
  dup_registers (methods_of fid "buzzvstig_" vstig_methods) v1.

(** buzzvstig_create, buzzvstig.c 155-186. *)
Definition vm_vstig_create v : res vm :=
  lnum_assert v 1 (int_arg v 1 (fun v1 z =>
    let id := wrap16 z in
    let v2 := vm_pop v1 in
    v3 <- make_vstig_table (set_ext v2 (put_vst (v_ext v2) (vs_create (vst (v_ext v2)) id))) id ;;
    vm_ret1 v3)).
(** buzzvstig_put, buzzvstig.c 191-239.  [id_get] is the macro of buzzvstig.c 16-20, the same text as in buzzswarm.c. *)
Definition vm_vstig_put v : res vm :=
  lnum_assert v 2 (id_get v (fun v1 id =>
    v2 <- vm_lload v1 1 ;;
    k <- stack_at v2 1 ;;
    v3 <- vm_lload v2 2 ;;
    o <- stack_at v3 1 ;;
    s <- vs_put (vst (v_ext v3)) id k o ;;
    vm_ret0 (set_ext v3 (put_vst (v_ext v3) s)))).
(** buzzvstig_size, buzzvstig.c 286-303: buzzdict_size is a uint32_t, converted to int32_t by buzzvm_pushi. *)
Definition vm_vstig_size v : res vm :=
  lnum_assert v 0 (id_get v (fun v1 id => vm_ret1 (push v1 (OInt (sign32 (vs_size (vst (v_ext v1)) id)))))).
(** buzzvstig_get, buzzvstig.c 308-345. *)
Definition vm_vstig_get v : res vm :=
  lnum_assert v 1 (id_get v (fun v1 id =>
    v2 <- vm_lload v1 1 ;;
    k <- stack_at v2 1 ;;
    '(s, o) <- vs_get (vst (v_ext v2)) id k ;;
    vm_ret1 (push (set_ext v2 (put_vst (v_ext v2) s)) o))).
End VstigVm.
