(** Model of neighbors.broadcast as a C function of the virtual machine, on the queue of messages that swarms and virtual
    stigmergies use too (Robot.v).  Listen.v models it on the data of neighbors.listen, with values as trees. *)
From Coq Require Import String.
From Verif Require Import Base Float Dict PDict Strman Obj Instr Vm Text Strlib OutMsg.
Local Open Scope Z_scope.
Local Open Scope list_scope.

Section BroadcastVm.
Context {X : Type}.
Notation vm := (vm X).
Implicit Types v : vm.
(** vm->outmsgs in the rest of the state. *)
Variable outq : X -> oq.
Variable put_outq : X -> oq -> X.
(** buzzheap_clone, buzzheap.c 73-124, on the tables of the heap and the object.  It is modelled in Heap.v; here it is a
    parameter, of which the theorems use that it copies what is not a table, a closure or user data. *)
Variable clone : list table -> obj -> res (list table * obj).

(** buzzneighbors_broadcast, buzzneighbors.c 136-149, with buzzoutmsg_queue_append_broadcast, buzzoutmsg.c 143-153. *)
Definition vm_broadcast v : res vm :=
  lnum_assert v 2 (
    v1 <- vm_lload v 1 ;;
    type_assert v1 1 T_STRING (
      v2 <- vm_lload v1 2 ;;
      t <- stack_at v2 2 ;; o <- stack_at v2 1 ;;
      '(h1, t') <- clone (v_heap v2) t ;; '(h2, o') <- clone h1 o ;;
      let v3 := set_heap v2 h2 in
      vm_ret0 (set_ext v3 (put_outq (v_ext v3) (append_broadcast (outq (v_ext v3)) t' o'))))).
End BroadcastVm.
