(** Specification of the outgoing message queue. *)
From Verif Require Import Base Dict PDict Strman Obj ObjSpec OutMsg.

(** Order in which the types of messages leave. *)
Definition prio (m : omsg) : Z :=
  match m with
  | MBroadcast _ _ => 0 | MList _ => 1 | MPut _ _ _ => 2 | MQuery _ _ _ => 3 | MJoin _ => 4 | MLeave _ => 5
  end.
Fixpoint by_priority (l : list omsg) : Prop :=
  match l with
  | [] => True
  | m :: t => Forall (fun m' => prio m <= prio m') t /\ by_priority t
  end.

(** The messages of a type. *)
Definition of_prio (n : Z) (l : list omsg) : list omsg := filter (fun m => prio m =? n) l.

(** The message an operation asks for (a list announcement asks for the swarms with a
    non-zero membership). *)
Definition asked (o : oop) : list omsg :=
  match o with
  | OBroadcast t v => [MBroadcast t v]
  | OList ids => [MList (map fst (filter (fun e => negb (snd e =? 0)) (pentries ids)))]
  | OJoin id => [MJoin id]
  | OLeave id => [MLeave id]
  | OVstig true id k d => [MPut id k d]
  | OVstig false id k d => [MQuery id k d]
  | OSend => []
  end.
Definition all_asked (ops : list oop) : list omsg := flat_map asked ops.

(** [subseq a b]: [a] is obtained from [b] by leaving out elements. *)
Inductive subseq {A} : list A -> list A -> Prop :=
| ss_nil : subseq [] []
| ss_skip x a b : subseq a b -> subseq a (x :: b)
| ss_keep x a b : subseq a b -> subseq (x :: a) (x :: b).

(** Requests under which the queue is used: the keys of stigmergy messages are in a class on
    which comparison is meaningful (C17, C18), and swarm ids are uint16_t values among which
    one ([u]) is never used (65536 simultaneous memberships do not fit in a list message). *)
Definition swid_ok (u id : Z) : Prop := 0 <= id < 65536 /\ id <> u.
Definition oop_ok (fl : bool) (sidof : str -> Z) (u : Z) (o : oop) : Prop :=
  match o with
  | OVstig _ _ k _ => vkey_class fl sidof k = true
  | OJoin id | OLeave id => swid_ok u id
  | OList ids => Forall (fun e => swid_ok u (fst e)) (pentries ids) /\ NoDup (map fst (pentries ids))
  | _ => True
  end.

(** The membership announced by a history. *)
Fixpoint announced (ops : list oop) (cur : Z -> bool) : Z -> bool :=
  match ops with
  | [] => cur
  | OJoin id :: t => announced t (fun s => (s =? id) || cur s)
  | OLeave id :: t => announced t (fun s => negb (s =? id) && cur s)
  | OList ids :: t =>
      announced t (fun s => existsb (fun e => (fst e =? s) && negb (snd e =? 0)) (pentries ids))
  | _ :: t => announced t cur
  end.

(** A message is about key [k] of stigmergy [id]. *)
Definition about (id : Z) (k : obj) (m : omsg) : bool :=
  match m with
  | MPut i k' _ | MQuery i k' _ => (i =? id) && same_key k' k
  | _ => false
  end.
Definition ts_of (m : omsg) : Z :=
  match m with MPut _ _ d | MQuery _ _ d => ve_ts d | _ => 0 end.
(** The newest request about a key since a message about it was last sent; the first of
    those with the same timestamp. [outs]: the messages sent by each operation. *)
Fixpoint newest (id : Z) (k : obj) (ops : list oop) (outs : list (list omsg)) (cur : option omsg)
  : option omsg :=
  match ops, outs with
  | o :: ops', s :: outs' =>
      newest id k ops' outs'
        match o with
        | OSend => if existsb (about id k) s then None else cur
        | _ =>
            match filter (about id k) (asked o), cur with
            | m :: _, Some m0 => if ts_of m0 <? ts_of m then Some m else cur
            | m :: _, None => Some m
            | [], _ => cur
            end
        end
  | _, _ => cur
  end.

(** [drains q msgs]: sending until nothing is left sends exactly [msgs], in this order. *)
Definition drains (q : oq) (msgs : list omsg) : Prop :=
  exists q' outs, oq_run q (repeat OSend (length msgs)) = Ok (q', outs) /\ concat outs = msgs /\
                  Forall (fun s => length s = 1%nat) outs /\ oq_first q' = None.
