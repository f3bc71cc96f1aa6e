(** Specification vocabulary for swarm.exec. *)
From Coq Require Import String.
From Verif Require Import Base Float Dict PDict Strman StrmanSpec Obj Instr Vm VmSpec Text CFunSpec.
Local Open Scope Z_scope.
Local Open Scope list_scope.

(** A C function was called as a method of the table at [a]. *)
Record method_called {X} (v : vm X) (a : Z) (args : list obj) (ra : Z) (s : list obj) (rest : list (list obj)) (L : list lsyms) : Prop := {
  mc_stacks : v_stacks v = [] :: (OInt ra :: s) :: rest;
  mc_locals : v_lsymts v = mkLs (map Some (OTab a :: args)) false :: L;
  mc_ready : v_state v = S_READY
}.
(** The table at [a] stands for the swarm [id]. *)
Definition swarm_table {X} (v : vm X) (a id : Z) : Prop :=
  exists t sid z, tab_at v a = Ok t /\ 0 <= sid < 65536 /\ sm_get (v_str v) sid = Some (bs "id") /\
    tab_get t (OStr sid (bs "id")) = Ok (Some (OInt z)) /\ id = z mod 65536.

(** C functions leave the swarms being executed as they found them. *)
Definition keeps_swarms {X} (f : vm X -> res (vm X)) : Prop :=
  forall v v' ls L, v_lsymts v = ls :: L -> ls_swarm ls = false -> f v = Ok v' -> v_state v' = S_READY -> v_swstk v' = v_swstk v.
(** The instruction that calls a closure as a swarm (which the compiler does not use) is not executed. *)
Definition no_swarm_calls {X} flist powf code size (v : vm X) : Prop :=
  forall n w, vm_steps flist powf code size n v = Ok w -> ~ about_to code w I_CALLS.
