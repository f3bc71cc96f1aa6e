(** Model of the execution of a function by a swarm (src/buzz/buzzswarm.c, buzzswarm_exec). *)
From Coq Require Import String.
From Verif Require Import Base Float Dict PDict Strman Obj Instr Vm Text Strlib.
Local Open Scope Z_scope.
Local Open Scope list_scope.

Section SwarmExec.
Context {X : Type}.
Notation vm := (vm X).
Implicit Types v : vm.
Variable flist : list (vm -> res vm).
Variable powf : libm.
Variable code : Z -> Z.
Variable size : Z.
Variable fuel : nat.
(** The entries of vm->swarms: 1 for the swarms the robot is in, 0 for the other known swarms (uint8_t). *)
Variable own : X -> Z -> option Z.

(** The macro id_get, buzzswarm.c 15-19.  The value of an object other than an integer is another member of a
    union. *)
Definition id_get v (k : vm -> Z -> res vm) : res vm :=
  v1 <- vm_lload v 0 ;;
  '(sm, sid) <- sm_register sm_fuel (v_str v1) (bs "id") true ;;
  v2 <- vm_tget (vm_pushs (set_str v1 sm) sid) ;;
  o <- stack_at v2 1 ;;
  match o with OInt z => k v2 (z mod 65536) | _ => UB end.

(** buzzswarm_exec, buzzswarm.c 481-518. *)
Definition swarm_exec v : res vm :=
  lnum_assert v 1 (
    id_get v (fun v1 id =>
      match own (v_ext v1) id with
      | None => Ok (err v1 E_SWARM)
      | Some x =>
          if x =? 0 then vm_ret0 v1
          else
            v2 <- vm_lload v1 1 ;;
            type_assert v2 1 T_CLOSURE (
              c <- stack_at v2 1 ;;
              v3 <- vm_ret0 v2 ;;
              if negb (is_ready (v_state v3)) then Ok v3
              else
                let v4 := push (push (set_swstk v3 (id :: v_swstk v3)) c) (OInt 0) in
                v5 <- vm_call flist v4 true ;;
                step_until flist powf code size fuel (zlen (v_stacks v3)) v5)
      end)).
End SwarmExec.
