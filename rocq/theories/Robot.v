(** The fields of the virtual machine that scripts and messages change beside the data of the script (struct buzzvm_s, buzzvm.h
    145-198): the robot's swarms, its virtual stigmergies and the one queue of outgoing messages that both write to.  Histories
    mix operations on swarms (Swarm.v), on stigmergies (Vstig.v) and broadcasts; the two models are about the same queue. *)
From Verif Require Import Base Dict PDict Strman Obj OutMsg Vstig Swarm.

(** vm->robot, vm->swarms, vm->vstigs, vm->outmsgs. *)
Record held := { h_robot : Z; h_own : pdict Z Z; h_vstigs : pdict Z vstig; h_out : oq }.
Definition h_vst (x : held) : vstate := {| st_robot := h_robot x; st_vstigs := h_vstigs x; st_out := h_out x |}.
Definition h_put_vst (x : held) (s : vstate) : held := {| h_robot := st_robot s; h_own := h_own x; h_vstigs := st_vstigs s; h_out := st_out s |}.
Definition h_sw (x : held) : swst := {| sw_own := h_own x; sw_out := h_out x |}.
Definition h_put_sw (x : held) (s : swst) : held := {| h_robot := h_robot x; h_own := sw_own s; h_vstigs := h_vstigs x; h_out := sw_out s |}.
(** buzzvm_new, buzzvm.c 513-580. *)
Definition h_new (robot : Z) : held := {| h_robot := robot; h_own := pnew 10; h_vstigs := pnew 10; h_out := oq_new |}.

(** A history of the robot.  Broadcasting is buzzneighbors_broadcast, buzzneighbors.c 136-149, on copies of the topic and the value; see OutMsg.v. *)
Inductive hop := HV (o : vop) | HS (o : swop) | HB (topic value : obj).
Inductive hout := RV (r : vout) | RS (r : sres) (sent : list omsg) | RB.
Definition hstep (x : held) (o : hop) : res (held * hout) :=
  match o with
  | HV o => '(s, r) <- vstep (h_vst x) o ;; Ok (h_put_vst x s, RV r)
  | HS o => '(s, r, ms) <- sw_step (h_sw x) o ;; Ok (h_put_sw x s, RS r ms)
  | HB t v => Ok ({| h_robot := h_robot x; h_own := h_own x; h_vstigs := h_vstigs x; h_out := append_broadcast (h_out x) t v |}, RB)
  end.
Fixpoint hrun (x : held) (ops : list hop) : res (held * list hout) :=
  match ops with
  | [] => Ok (x, [])
  | o :: t => '(x1, r) <- hstep x o ;; '(x2, rs) <- hrun x1 t ;; Ok (x2, r :: rs)
  end.
