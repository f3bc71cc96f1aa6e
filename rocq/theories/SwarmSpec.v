(** Specification of swarm membership. *)
From Verif Require Import Base OutMsg Swarm.

(** ** What is known about another robot *)

(** Events at a robot: a swarm message from another robot, or a round of updates (one per
    control step). *)
Inductive mev := EMsg (robot : Z) (m : omsg) | EUpdate.
Definition mb_step (m : members) (e : mev) : members :=
  match e with EMsg r msg => mb_receive m r msg | EUpdate => mb_update m end.
Definition mb_run (m : members) (es : list mev) : members := fold_left mb_step es m.

(** The swarms robot [r] is in according to its own messages, and the number of updates since
    its last message; after more than 50 silent updates nothing is known any more.  An empty
    list is not taken into account. *)
Definition view := ((Z -> bool) * Z)%type.
Definition view_step (r : Z) (v : view) (e : mev) : view :=
  match e with
  | EMsg r' m =>
      if r' =? r then
        match m with
        | MList [] => v
        | MList l => (fun s => existsb (Z.eqb s) l, 0)
        | MJoin s => (fun s' => (s' =? s) || fst v s', 0)
        | MLeave s => (fun s' => negb (s' =? s) && fst v s', 0)
        | _ => v
        end
      else v
  | EUpdate => if snd v + 1 >? 50 then (fun _ => false, snd v + 1) else (fst v, snd v + 1)
  end.
Definition view_run (r : Z) (es : list mev) : view := fold_left (view_step r) es (fun _ => false, 0).

(** ** The memberships of the robot itself: for each swarm id, whether it is known, and if so
    whether the robot is a member. *)
Definition memb := Z -> option bool.
Definition is_member (m : memb) (id : Z) : bool := match m id with Some b => b | None => false end.
Definition put (m : memb) (id : Z) (b : bool) : memb := fun i => if i =? id then Some b else m i.
Definition memb_step (m : memb) (o : swop) : memb :=
  match o with
  | SCreate id => match m id with None => put m id false | Some _ => m end
  | SJoin id => match m id with None => m | Some _ => put m id true end
  | SLeave id => match m id with None => m | Some _ => put m id false end
  | SSelect id c => match m id with None => m | Some _ => put m id (negb (c =? 0)) end
  | SIn _ | SSend | SPeriod => m
  | SOthers id1 id2 => match m id1 with None => m | Some b => put m id2 (negb b) end
  | SUnion id a b => put m id (is_member m a || is_member m b)
  | SInter id a b => put m id (is_member m a && is_member m b)
  | SDiff id a b => put m id (is_member m a && negb (is_member m b))
  end.
Definition memb_run (ops : list swop) : memb := fold_left memb_step ops (fun _ => None).
(** What a call returns: an error for an unknown swarm, a truth value for in(). *)
Definition sres_ok (m : memb) (o : swop) (r : sres) : Prop :=
  match o with
  | SIn id => match m id with
              | None => r = SErr
              | Some b => exists z, r = SInt z /\ (z <> 0 <-> b = true)
              end
  | SJoin id | SLeave id | SSelect id _ => r = match m id with None => SErr | Some _ => SNone end
  | SOthers id1 id2 => r = match m id1 with None => SErr | Some _ => SSwarm id2 end
  | SCreate id | SUnion id _ _ | SInter id _ _ | SDiff id _ _ => r = SSwarm id
  | SSend | SPeriod => r = SNone
  end.
Fixpoint results_ok (m : memb) (ops : list swop) (rs : list sres) : Prop :=
  match ops, rs with
  | [], [] => True
  | o :: ops', r :: rs' => sres_ok m o r /\ results_ok (memb_step m o) ops' rs'
  | _, _ => False
  end.

(** Arguments in range: swarm ids are uint16_t values other than [u] (one id is never used, so
    that list messages do not overflow), and the condition of select is not a non-zero
    multiple of 256. *)
Definition swop_ok (u : Z) (o : swop) : Prop :=
  let ok id := 0 <= id < 65536 /\ id <> u in
  match o with
  | SCreate id | SJoin id | SLeave id | SIn id => ok id
  | SSelect id c => ok id /\ (c mod 256 = 0 -> c = 0)
  | SOthers a b => ok a /\ ok b
  | SUnion id a b | SInter id a b | SDiff id a b => ok id /\ ok a /\ ok b
  | SSend | SPeriod => True
  end.

(** Messages as robots of this code send them: a list names a swarm once. *)
Definition mev_ok (e : mev) : Prop :=
  match e with EMsg _ (MList l) => NoDup l | _ => True end.

(** An operation that ends the membership in a swarm other than by leave() or select():
    others, union, intersection or difference with the id of a swarm the robot is in, and a
    false result. *)
Definition silently_leaves (m : memb) (o : swop) : bool :=
  match o with
  | SOthers _ id | SUnion id _ _ | SInter id _ _ | SDiff id _ _ =>
      is_member m id && negb (is_member (memb_step m o) id)
  | _ => false
  end.
Fixpoint never_silent (m : memb) (ops : list swop) : Prop :=
  match ops with
  | [] => True
  | o :: t => silently_leaves m o = false /\ never_silent (memb_step m o) t
  end.
