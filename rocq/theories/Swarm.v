(** Model of src/buzz/buzzswarm.c: the table of other robots' memberships, and the closures
    that change the memberships of the robot itself.  All ids are uint16_t values. *)
From Verif Require Import Base Dict PDict Strman Obj OutMsg.

(** ** Memberships of other robots *)

(** struct buzzswarm_elem_s, buzzswarm.c 28-32. *)
Record selem := { se_swarms : list Z; se_age : Z }.
Definition members := pdict Z selem.

(** buzzswarm_members_new, buzzswarm.c 52-59. *)
Definition mb_new : members := pnew 10.
Definition mb_get : members -> Z -> option selem := pget uintkeyhash intkeycmp.

(** buzzswarm_members_join, buzzswarm.c 71-94. *)
Definition mb_join (m : members) (robot swarm : Z) : members :=
  match mb_get m robot with
  | Some _ =>
      pmodify uintkeyhash intkeycmp m robot (fun e =>
        {| se_swarms := if existsb (Z.eqb swarm) (se_swarms e) then se_swarms e
                        else se_swarms e ++ [swarm];
           se_age := 0 |})
  | None => pset uintkeyhash intkeycmp m robot {| se_swarms := [swarm]; se_age := 0 |}
  end.

(** buzzswarm_members_leave, buzzswarm.c 99-120. *)
Definition mb_leave (m : members) (robot swarm : Z) : members :=
  match mb_get m robot with
  | Some e =>
      let l := from_swarm_queue (se_swarms e) swarm in
      let m1 := pmodify uintkeyhash intkeycmp m robot
                  (fun _ => {| se_swarms := l; se_age := 0 |}) in
      match l with
      | [] => premove uintkeyhash intkeycmp m1 robot
      | _ => m1
      end
  | None => m
  end.

(** buzzswarm_members_refresh, buzzswarm.c 125-144. *)
Definition mb_refresh (m : members) (robot : Z) (swarms : list Z) : members :=
  match mb_get m robot with
  | Some _ => pmodify uintkeyhash intkeycmp m robot (fun _ => {| se_swarms := swarms; se_age := 0 |})
  | None => pset uintkeyhash intkeycmp m robot {| se_swarms := swarms; se_age := 0 |}
  end.

(** buzzswarm_members_isrobotin, buzzswarm.c 149-164. *)
Definition mb_isrobotin (m : members) (robot swarm : Z) : bool :=
  match mb_get m robot with
  | Some e => existsb (Z.eqb swarm) (se_swarms e)
  | None => false
  end.

(** MEMBERSHIP_AGE_MAX, buzzswarm.c 210. *)
Definition MEMBERSHIP_AGE_MAX : Z := 50.
(** check_swarm_elem on one entry, buzzswarm.c 220-234: the age is a uint16_t. *)
Definition aged (e : selem) : selem :=
  {| se_swarms := se_swarms e; se_age := wrap16 (se_age e + 1) |}.
(** buzzswarm_members_update, buzzswarm.c 236-248.  The keys to delete form a list in reverse
    order of visit. *)
Definition mb_update (m : members) : members :=
  let m1 := map (map (fun e => (fst e, aged (snd e)))) m in
  let todel := rev (map fst (filter (fun e => se_age (snd e) >? MEMBERSHIP_AGE_MAX) (pentries m1))) in
  fold_left (premove uintkeyhash intkeycmp) todel m1.

(** The swarm cases of buzzvm_process_inmsgs, buzzvm.c 433-479, on well-formed messages from
    robot [rid] (an empty list is ignored, line 441). *)
Definition mb_receive (m : members) (rid : Z) (msg : omsg) : members :=
  match msg with
  | MList [] => m
  | MList l => mb_refresh m rid l
  | MJoin s => mb_join m rid s
  | MLeave s => mb_leave m rid s
  | _ => m
  end.

(** ** Memberships of the robot itself

    vm->swarms: a dictionary of 10 buckets from swarm ids to uint8_t (buzzvm.c 543-548).  The
    closures are modelled with the ids already taken from the tables on the stack: [id] is the
    integer found in the field "id" of the swarm's table (converted to uint16_t), and the
    result is the state and what is returned ([SErr]: the error BUZZVM_ERROR_SWARM). *)
Record swst := { sw_own : pdict Z Z; sw_out : oq }.
Inductive sres := SErr | SNone | SInt (z : Z) | SSwarm (id : Z).

Definition sw_get (s : swst) (id : Z) : option Z := pget uintkeyhash intkeycmp (sw_own s) id.
Definition sw_set (s : swst) (id v : Z) : swst :=
  {| sw_own := pset uintkeyhash intkeycmp (sw_own s) id v; sw_out := sw_out s |}.
Definition sw_announce (s : swst) (join : bool) (id : Z) : res swst :=
  o <- append_joinleave (sw_out s) join id ;; Ok {| sw_own := sw_own s; sw_out := o |}.

(** buzzswarm_create, buzzswarm.c 290-305. *)
Definition swarm_create (s : swst) (id : Z) : res (swst * sres) :=
  let id := wrap16 id in
  match sw_get s id with
  | Some _ => Ok (s, SSwarm id)
  | None => Ok (sw_set s id 0, SSwarm id)
  end.
(** buzzswarm_others, buzzswarm.c 342-372. *)
Definition swarm_others (s : swst) (id1 id2 : Z) : res (swst * sres) :=
  let id1 := wrap16 id1 in let id2 := wrap16 id2 in
  match sw_get s id1 with
  | None => Ok (s, SErr)
  | Some x =>
      let v := if x =? 0 then 1 else 0 in
      let s1 := sw_set s id2 v in
      s2 <- (if v =? 0 then Ok s1 else sw_announce s1 true id2) ;;
      Ok (s2, SSwarm id2)
  end.
(** buzzswarm_join, buzzswarm.c 377-398. *)
Definition swarm_join (s : swst) (id : Z) : res (swst * sres) :=
  let id := wrap16 id in
  match sw_get s id with
  | Some _ => s1 <- sw_announce (sw_set s id 1) true id ;; Ok (s1, SNone)
  | None => Ok (s, SErr)
  end.
(** buzzswarm_leave, buzzswarm.c 403-424. *)
Definition swarm_leave (s : swst) (id : Z) : res (swst * sres) :=
  let id := wrap16 id in
  match sw_get s id with
  | Some _ => s1 <- sw_announce (sw_set s id 0) false id ;; Ok (s1, SNone)
  | None => Ok (s, SErr)
  end.
(** buzzswarm_in, buzzswarm.c 429-445. *)
Definition swarm_in (s : swst) (id : Z) : res (swst * sres) :=
  match sw_get s (wrap16 id) with
  | Some x => Ok (s, SInt x)
  | None => Ok (s, SErr)
  end.
(** buzzswarm_select, buzzswarm.c 450-476: the condition is converted to uint8_t. *)
Definition swarm_select (s : swst) (id c : Z) : res (swst * sres) :=
  let id := wrap16 id in let c := wrap8 c in
  match sw_get s id with
  | Some _ => s1 <- sw_announce (sw_set s id c) (negb (c =? 0)) id ;; Ok (s1, SNone)
  | None => Ok (s, SErr)
  end.
(** buzzswarm_check, buzzswarm.c 523-549, on the id of a swarm. *)
Definition swarm_check (s : swst) (id : Z) : bool :=
  match sw_get s (wrap16 id) with Some x => negb (x =? 0) | None => false end.
(** buzzswarm_set_operation_boilerplate, buzzswarm.c 554-581. *)
Definition swarm_setop (cond : bool -> bool -> bool) (s : swst) (id a b : Z) : res (swst * sres) :=
  let id := wrap16 id in
  let v := cond (swarm_check s a) (swarm_check s b) in
  let s1 := sw_set s id (if v then 1 else 0) in
  s2 <- (if v then sw_announce s1 true id else Ok s1) ;;
  Ok (s2, SSwarm id).
(** buzzswarm_union, buzzswarm_intersection, buzzswarm_difference, buzzswarm.c 586-614. *)
Definition swarm_union := swarm_setop (fun x y => x || y).
Definition swarm_intersection := swarm_setop (fun x y => x && y).
Definition swarm_difference := swarm_setop (fun x y => x && negb y).

(** Histories of calls; [SSend] sends one queued message and [SPeriod] is the periodic
    announcement of buzzvm_process_outmsgs, buzzvm.c 491-501, with the countdown at 0. *)
Inductive swop :=
| SCreate (id : Z) | SJoin (id : Z) | SLeave (id : Z) | SSelect (id c : Z) | SIn (id : Z)
| SOthers (id1 id2 : Z) | SUnion (id a b : Z) | SInter (id a b : Z) | SDiff (id a b : Z)
| SSend | SPeriod.
Definition sw_step (s : swst) (o : swop) : res (swst * sres * list omsg) :=
  match o with
  | SCreate id => '(s', r) <- swarm_create s id ;; Ok (s', r, [])
  | SJoin id => '(s', r) <- swarm_join s id ;; Ok (s', r, [])
  | SLeave id => '(s', r) <- swarm_leave s id ;; Ok (s', r, [])
  | SSelect id c => '(s', r) <- swarm_select s id c ;; Ok (s', r, [])
  | SIn id => '(s', r) <- swarm_in s id ;; Ok (s', r, [])
  | SOthers a b => '(s', r) <- swarm_others s a b ;; Ok (s', r, [])
  | SUnion id a b => '(s', r) <- swarm_union s id a b ;; Ok (s', r, [])
  | SInter id a b => '(s', r) <- swarm_intersection s id a b ;; Ok (s', r, [])
  | SDiff id a b => '(s', r) <- swarm_difference s id a b ;; Ok (s', r, [])
  | SSend =>
      q <- oq_next (sw_out s) ;;
      Ok ({| sw_own := sw_own s; sw_out := q |}, SNone,
          match oq_first (sw_out s) with Some m => [m] | None => [] end)
  | SPeriod =>
      Ok (if psize (sw_own s) =? 0 then s
          else {| sw_own := sw_own s; sw_out := append_swarm_list (sw_out s) (sw_own s) |}, SNone, [])
  end.
Definition sw_new : swst := {| sw_own := pnew 10; sw_out := oq_new |}.
Fixpoint sw_run (s : swst) (ops : list swop) : res (swst * list sres * list omsg) :=
  match ops with
  | [] => Ok (s, [], [])
  | o :: t =>
      '(s1, r, ms) <- sw_step s o ;;
      '(s2, rs, ms') <- sw_run s1 t ;; Ok (s2, r :: rs, ms ++ ms')
  end.
