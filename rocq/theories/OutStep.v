(** Model of buzzvm_process_outmsgs, src/buzz/buzzvm.c 491-501. *)
From Verif Require Import Base Dict PDict Obj OutMsg.

(** SWARM_BROADCAST_PERIOD, buzzvm.c 21; the initial value of the counter, 555. *)
Definition SWARM_BROADCAST_PERIOD : Z := 10.

(** The counter (uint16_t), the queue; [swarms] is the dictionary of memberships. *)
Definition process_outmsgs (c : Z) (q : oq) (swarms : pdict Z Z) : Z * oq :=
  let c1 := if c >? 0 then c - 1 else c in
  if (c1 =? 0) && negb (psize swarms =? 0)
  then (SWARM_BROADCAST_PERIOD, append_swarm_list q swarms)
  else (c1, q).
