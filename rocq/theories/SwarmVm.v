(** Model of the functions that scripts call on swarms (src/buzz/buzzswarm.c), as C functions of the virtual machine.
    What they do to vm->swarms and to the queue of messages is in Swarm.v; here are the arguments, the tables that stand for
    swarms, the errors and the values returned. *)
From Coq Require Import String.
From Verif Require Import Base Float Dict PDict Strman Obj Instr Vm Text Strlib NeighborsVm Register OutMsg Swarm SwarmExec.
Local Open Scope Z_scope.
Local Open Scope list_scope.

Section SwarmVm.
Context {X : Type}.
Notation vm := (vm X).
Implicit Types v : vm.
(** The numbers of the C functions among the registered ones, as in Register.v. *)
Variable fid : string -> Z.
(** vm->swarms and vm->outmsgs in the rest of the state. *)
Variable sw : X -> swst.
Variable put_sw : X -> swst -> X.

(** make_table, buzzswarm.c 250-267. *)
Definition swarm_methods : list string := ["others"; "join"; "leave"; "in"; "select"; "exec"]%string.
Definition make_swarm_table v (id : Z) : res vm :=
  v1 <- dup_registers (methods_of fid "buzzswarm_" swarm_methods) (vm_pusht v) ;;
  dup_register v1 ("id"%string, OInt id).

(** The new swarms and messages, and the end of the function: an error, no value, an integer, the table of a swarm.  In the set
    operations the table is made before the announcement (buzzswarm.c 572-580): the two do not depend on each other. *)
Definition answer v (r : res (swst * sres)) : res vm :=
  '(s, r) <- r ;;
  let v1 := set_ext v (put_sw (v_ext v) s) in
  match r with
  | SErr => Ok (err v1 E_SWARM)
  | SNone => vm_ret0 v1
  | SInt z => vm_ret1 (push v1 (OInt z))
  | SSwarm id => v2 <- make_swarm_table v1 id ;; vm_ret1 v2
  end.
(** An argument that must be an integer: buzzvm_lload, buzzvm_type_assert, buzzvm_stack_at(vm, 1)->i.value. *)
Definition int_arg v (i : Z) (k : vm -> Z -> res vm) : res vm :=
  v1 <- vm_lload v i ;; type_assert v1 1 T_INT (z <- top_int v1 ;; k v1 z).

(** buzzswarm_create, buzzswarm.c 290-305. *)
Definition vm_swarm_create v : res vm :=
  lnum_assert v 1 (int_arg v 1 (fun v1 z => answer v1 (swarm_create (sw (v_ext v1)) z))).
(** buzzswarm_others, buzzswarm.c 342-372: an unknown swarm is an error before the argument is looked at. *)
Definition vm_swarm_others v : res vm :=
  lnum_assert v 1 (id_get v (fun v1 id =>
    match sw_get (sw (v_ext v1)) id with
    | None => Ok (err v1 E_SWARM)
    | Some _ => int_arg v1 1 (fun v2 z => answer v2 (swarm_others (sw (v_ext v2)) id z))
    end)).
(** buzzswarm_join, buzzswarm.c 377-398; buzzswarm_leave, 403-424; buzzswarm_in, 429-445. *)
Definition vm_swarm_join v : res vm := lnum_assert v 0 (id_get v (fun v1 id => answer v1 (swarm_join (sw (v_ext v1)) id))).
Definition vm_swarm_leave v : res vm := lnum_assert v 0 (id_get v (fun v1 id => answer v1 (swarm_leave (sw (v_ext v1)) id))).
Definition vm_swarm_in v : res vm := lnum_assert v 0 (id_get v (fun v1 id => answer v1 (swarm_in (sw (v_ext v1)) id))).
(** buzzswarm_select, buzzswarm.c 450-476. *)
Definition vm_swarm_select v : res vm :=
  lnum_assert v 1 (id_get v (fun v1 id => int_arg v1 1 (fun v2 z => answer v2 (swarm_select (sw (v_ext v2)) id z)))).

(** buzzswarm_check, buzzswarm.c 523-549, and the test of its result in buzzswarm_set_operation_boilerplate, 564-571.  When the
    argument is not a table, the macro buzzvm_type_assert (buzzvm.h 755-764) returns vm->state from buzzswarm_check: the value is
    BUZZVM_STATE_ERROR, 3 (buzzvm.h 27-31), which is not negative and counts as true. *)
Definition swarm_arg v (i : Z) (k : vm -> bool -> res vm) : res vm :=
  v1 <- vm_lload v i ;;
  o <- stack_at v1 1 ;;
  match o with
  | OTab _ =>
      v2 <- push_name v1 "id" ;;
      v3 <- vm_tget v2 ;;
      x <- stack_at v3 1 ;;
      match x with
      | OInt z => k v3 (swarm_check (sw (v_ext v3)) z)
      | _ => Ok (err v3 E_SWARM)
      end
  | _ => k (err v1 E_TYPE) true
  end.
(** What the set operations do once the memberships [a] and [b] in the two swarms are known, buzzswarm.c 572-581; see
    swarm_setop in Swarm.v. *)
Definition setop_of (cond : bool -> bool -> bool) (s : swst) (id : Z) (a b : bool) : res (swst * sres) :=
  let id := wrap16 id in
  let v := cond a b in
  let s1 := sw_set s id (if v then 1 else 0) in
  s2 <- (if v then sw_announce s1 true id else Ok s1) ;;
  Ok (s2, SSwarm id).
(** buzzswarm_set_operation_boilerplate, buzzswarm.c 554-581. *)
Definition vm_swarm_setop (cond : bool -> bool -> bool) v : res vm :=
  lnum_assert v 3 (int_arg v 1 (fun v1 z =>
    swarm_arg v1 2 (fun v2 a => swarm_arg v2 3 (fun v3 b => answer v3 (setop_of cond (sw (v_ext v3)) z a b))))).
(** buzzswarm_union, buzzswarm_intersection, buzzswarm_difference, buzzswarm.c 586-614. *)
Definition vm_swarm_union := vm_swarm_setop (fun x y => x || y).
Definition vm_swarm_intersection := vm_swarm_setop (fun x y => x && y).
Definition vm_swarm_difference := vm_swarm_setop (fun x y => x && negb y).
End SwarmVm.
