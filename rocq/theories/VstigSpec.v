(** Specification of virtual stigmergies: a stigmergy maps keys to entries (value, timestamp,
    robot that wrote it). *)
From Verif Require Import Base PDict Strman Obj ObjSpec OutMsg OutMsgSpec Vstig.

(** The entry of a key, and whether a stigmergy exists and uses the default conflict manager. *)
Definition entry (s : vstate) (id : Z) (k : obj) : option velem :=
  match vfind s id with
  | Some vs => match vfetch vs k with Ok r => r | _ => None end
  | None => None
  end.
Definition exists_vs (s : vstate) (id : Z) : Prop := vfind s id <> None.
Definition default_mgr (s : vstate) (id : Z) : Prop := forall vs, vfind s id = Some vs -> vs_oc vs = None.

(** Operations whose keys are in a class on which comparison is meaningful (C17, C18). *)
Definition vmsg_ok (fl : bool) (sidof : str -> Z) (m : omsg) : Prop :=
  match m with MPut _ k _ | MQuery _ k _ => vkey_class fl sidof k = true | _ => True end.
Definition vop_ok (fl : bool) (sidof : str -> Z) (o : vop) : Prop :=
  match o with
  | VPut _ k _ | VGet _ k => vkey_class fl sidof k = true
  | VRecv m => vmsg_ok fl sidof m
  | _ => True
  end.
(** States reachable from the start of a robot. *)
Definition reachable (fl : bool) (sidof : str -> Z) (s : vstate) : Prop :=
  exists r ops outs, Forall (vop_ok fl sidof) ops /\ vrun (vst_new r) ops = Ok (s, outs).

(** The entry a stigmergy message about (id, k) carries. *)
Definition carried (id : Z) (k : obj) (m : omsg) : option velem :=
  match m with
  | MPut i k' e | MQuery i k' e => if (i =? id) && same_key k' k then Some e else None
  | _ => None
  end.

(** [beats a b]: entry [a] wins against [b]: it is newer, or of the same age and not a
    deletion while [b] is, or of the same age and kind and written by a robot with higher id. *)
Definition beats (a b : velem) : Prop :=
  ve_ts b < ve_ts a \/
  (ve_ts a = ve_ts b /\
   ((ve_data a <> ONil /\ ve_data b = ONil) \/
    ((ve_data a = ONil <-> ve_data b = ONil) /\ ve_robot b < ve_robot a))).

(** A message that updates its receiver: a PUT, or a QUERY with a value. *)
Definition update_msg (m : omsg) : Prop :=
  match m with MPut _ _ _ => True | MQuery _ _ e => ve_data e <> ONil | _ => False end.

(** Receiving messages. *)
Definition receive_all (s : vstate) (ms : list omsg) : res (vstate * list vout) := vrun s (map VRecv ms).
