(** Specification of mixed histories: the part of a history that is about stigmergies, the part that is about swarms, and what
    the calls of each part return. *)
From Verif Require Import Base Strman Obj ObjSpec OutMsg OutMsgSpec Vstig VstigSpec Swarm SwarmSpec Robot.

Definition hop_ok (fl : bool) (sidof : str -> Z) (u : Z) (o : hop) : Prop :=
  match o with HV o => vop_ok fl sidof o | HS o => swop_ok u o | HB _ _ => True end.
Definition stigmergy_part (ops : list hop) : list vop := flat_map (fun o => match o with HV o => [o] | _ => [] end) ops.
Definition swarm_part (ops : list hop) : list swop := flat_map (fun o => match o with HS o => [o] | _ => [] end) ops.
(** What was returned to the callers of the two parts: all but the messages that were sent. *)
Definition returns (r : vout) : vout := match r with RSent _ => RSent [] | r => r end.
Definition stigmergy_results (rs : list hout) : list vout := flat_map (fun r => match r with RV r => [returns r] | _ => [] end) rs.
Definition swarm_results (rs : list hout) : list sres := flat_map (fun r => match r with RS r _ => [r] | _ => [] end) rs.
(** The messages that were sent. *)
Definition sent_by (r : hout) : list omsg := match r with RV (RSent l) => l | RS _ l => l | _ => [] end.
