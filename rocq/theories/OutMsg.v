(** Model of src/buzz/buzzoutmsg.c: the queues of outgoing messages.

    Swarm ids and stigmergy ids are uint16_t values.  Keys and values of messages are clones
    of the objects given by the caller (equal to them by C20), here the objects themselves. *)
From Verif Require Import Base Dict PDict Strman Obj.

(** struct buzzvstig_elem_s, buzzvstig.h 14-22. *)
Record velem := { ve_data : obj; ve_ts : Z; ve_robot : Z }.

(** struct buzzoutmsg_vstig_s, buzzoutmsg.c 34-39, with its address. *)
Record vmsg := { v_addr : Z; v_put : bool; v_id : Z; v_key : obj; v_data : velem }.

(** struct buzzoutmsg_queue_s, buzzoutmsg.h.  A LIST message is its array of ids; a JOIN or
    LEAVE message is its only id.  [o_vstig] maps stigmergy id and key to the address of the
    pending message.  [o_next]: the next address handed out by malloc (addresses are not
    reused; OutMsgProofs.v shows that no pointer to a freed message is kept). *)
Record oq := {
  o_bc : list (obj * obj);
  o_list : list (list Z);
  o_put : list vmsg;
  o_query : list vmsg;
  o_join : list Z;
  o_leave : list Z;
  o_vstig : pdict Z (pdict obj Z);
  o_next : Z
}.

(** buzzoutmsg_queue_new, buzzoutmsg.c 96-111. *)
Definition oq_new : oq :=
  {| o_bc := []; o_list := []; o_put := []; o_query := []; o_join := []; o_leave := [];
     o_vstig := pnew 10; o_next := 0 |}.

(** buzzoutmsg_queue_size, buzzoutmsg.c 130-138. *)
Definition oq_size (q : oq) : Z :=
  wrap32 (zlen (o_bc q) + zlen (o_list q) + zlen (o_join q) + zlen (o_leave q)
          + zlen (o_put q) + zlen (o_query q)).

Definition set_swarm (q : oq) (l : list (list Z)) (j v : list Z) : oq :=
  {| o_bc := o_bc q; o_list := l; o_put := o_put q; o_query := o_query q;
     o_join := j; o_leave := v; o_vstig := o_vstig q; o_next := o_next q |}.
Definition set_bc (q : oq) (l : list (obj * obj)) : oq :=
  {| o_bc := l; o_list := o_list q; o_put := o_put q; o_query := o_query q;
     o_join := o_join q; o_leave := o_leave q; o_vstig := o_vstig q; o_next := o_next q |}.
Definition set_vs (q : oq) (put : bool) (l : list vmsg) (d : pdict Z (pdict obj Z)) : oq :=
  {| o_bc := o_bc q; o_list := o_list q;
     o_put := if put then l else o_put q; o_query := if put then o_query q else l;
     o_join := o_join q; o_leave := o_leave q; o_vstig := d; o_next := o_next q |}.
Definition vqueue (q : oq) (put : bool) : list vmsg := if put then o_put q else o_query q.

(** buzzoutmsg_queue_append_broadcast, buzzoutmsg.c 143-153. *)
Definition append_broadcast (q : oq) (topic value : obj) : oq :=
  set_bc q (o_bc q ++ [(topic, value)]).

(** dict_to_array and buzzoutmsg_queue_append_swarm_list, buzzoutmsg.c 158-208.  [ids] is the
    dictionary of memberships (uint16_t to uint8_t).  The size is stored in a uint16_t. *)
Definition dict_to_array (ids : pdict Z Z) : list Z :=
  map fst (filter (fun e => negb (snd e =? 0)) (pentries ids)).
Definition append_swarm_list (q : oq) (ids : pdict Z Z) : oq :=
  let da := dict_to_array ids in
  set_swarm q [firstn (Z.to_nat (wrap16 (zlen da))) da] [] [].

(** append_to_swarm_queue, buzzoutmsg.c 213-242. *)
Definition to_swarm_queue (l : list Z) (id : Z) : list Z :=
  match l with
  | [] => l ++ [id]
  | _ => if existsb (Z.eqb id) l then l else l ++ [id]
  end.
(** remove_from_swarm_queue, buzzoutmsg.c 244-254: the first message with this id. *)
Fixpoint from_swarm_queue (l : list Z) (id : Z) : list Z :=
  match l with
  | [] => []
  | x :: t => if x =? id then t else x :: from_swarm_queue t id
  end.

(** buzzoutmsg_queue_append_swarm_joinleave, buzzoutmsg.c 256-306.  [join]: the type is
    BUZZMSG_SWARM_JOIN, otherwise BUZZMSG_SWARM_LEAVE.  The size of the list is a uint16_t;
    when it wraps to 0 the new id is written before the array. *)
Definition append_joinleave (q : oq) (join : bool) (id : Z) : res oq :=
  match o_list q with
  | l :: rest =>
      if existsb (Z.eqb id) l then
        if join then Ok q
        else Ok (set_swarm q (from_swarm_queue l id :: rest) (o_join q) (o_leave q))
      else
        if join then
          if wrap16 (zlen l + 1) =? 0 then UB
          else Ok (set_swarm q ((l ++ [id]) :: rest) (o_join q) (o_leave q))
        else Ok q
  | [] =>
      if join then
        Ok (set_swarm q [] (to_swarm_queue (o_join q) id) (from_swarm_queue (o_leave q) id))
      else
        Ok (set_swarm q [] (from_swarm_queue (o_join q) id) (to_swarm_queue (o_leave q) id))
  end.

(** Reading a message through a pointer: undefined if no live message has this address. *)
Definition deref (q : oq) (a : Z) : res vmsg :=
  match find (fun m => v_addr m =? a) (o_put q ++ o_query q) with
  | Some m => Ok m
  | None => UB
  end.
(** buzzdarray_find by address and buzzdarray_remove at that position (nothing is removed when
    the position is past the end), buzzoutmsg.c 344 and 356. *)
Fixpoint remove_addr (l : list vmsg) (a : Z) : list vmsg :=
  match l with
  | [] => []
  | m :: t => if v_addr m =? a then t else m :: remove_addr t a
  end.

(** buzzoutmsg.c 316-336: the dictionary of messages (with that of stigmergy [id]), the
    dictionary of stigmergy [id] (created if necessary) and its entry for [key]. *)
Definition vs_lookup (vd : pdict Z (pdict obj Z)) (id : Z) (key : obj)
  : res (pdict Z (pdict obj Z) * pdict obj Z * option Z) :=
  match pget uintkeyhash intkeycmp vd id with
  | Some vs => e <- rget obj_hash obj_cmp vs key ;; Ok (vd, vs, e)
  | None => Ok (pset uintkeyhash intkeycmp vd id (pnew 10), pnew 10, None)
  end.

(** buzzoutmsg_queue_append_vstig, buzzoutmsg.c 311-360. *)
Definition append_vstig (q : oq) (put : bool) (id : Z) (key : obj) (data : velem) : res oq :=
  '(vd, vs, e) <- vs_lookup (o_vstig q) id key ;;
  old <- match e with
         | Some a => m <- deref q a ;; Ok (Some m)
         | None => Ok None
         end ;;
  let m := {| v_addr := o_next q; v_put := put; v_id := id; v_key := key; v_data := data |} in
  let write :=
    vs' <- rset obj_hash obj_cmp vs key (o_next q) ;;
    Ok (pmodify uintkeyhash intkeycmp vd id (fun _ => vs')) in
  match old with
  | Some o =>
      if ve_ts (v_data o) >=? ve_ts data then Ok (set_vs q true (o_put q) vd)
      else
        vd' <- write ;;
        let q1 := set_vs q (v_put o) (remove_addr (vqueue q (v_put o)) (v_addr o)) vd' in
        let q2 := set_vs q1 put (vqueue q1 put ++ [m]) vd' in
        Ok {| o_bc := o_bc q2; o_list := o_list q2; o_put := o_put q2; o_query := o_query q2;
              o_join := o_join q2; o_leave := o_leave q2; o_vstig := o_vstig q2;
              o_next := o_next q + 1 |}
  | None =>
      vd' <- write ;;
      let q2 := set_vs q put (vqueue q put ++ [m]) vd' in
      Ok {| o_bc := o_bc q2; o_list := o_list q2; o_put := o_put q2; o_query := o_query q2;
            o_join := o_join q2; o_leave := o_leave q2; o_vstig := o_vstig q2;
            o_next := o_next q + 1 |}
  end.

(** A message as it is sent (buzzoutmsg_queue_first serialises it). *)
Inductive omsg :=
| MBroadcast (topic value : obj)
| MList (ids : list Z)
| MPut (id : Z) (key : obj) (data : velem)
| MQuery (id : Z) (key : obj) (data : velem)
| MJoin (id : Z)
| MLeave (id : Z).

(** buzzoutmsg_queue_first, buzzoutmsg.c 365-441: the message that is serialised. *)
Definition oq_first (q : oq) : option omsg :=
  match o_bc q with
  | (t, v) :: _ => Some (MBroadcast t v)
  | [] =>
  match o_list q with
  | l :: _ => Some (MList l)
  | [] =>
  match o_put q with
  | m :: _ => Some (MPut (v_id m) (v_key m) (v_data m))
  | [] =>
  match o_query q with
  | m :: _ => Some (MQuery (v_id m) (v_key m) (v_data m))
  | [] =>
  match o_join q with
  | i :: _ => Some (MJoin i)
  | [] =>
  match o_leave q with
  | i :: _ => Some (MLeave i)
  | [] => None
  end end end end end end.

(** Removing the entry of a message from the dictionary, buzzoutmsg.c 460-462 and 471-473
    (dereferencing a NULL pointer when the stigmergy has no dictionary). *)
Definition forget (q : oq) (m : vmsg) : res (pdict Z (pdict obj Z)) :=
  match pget uintkeyhash intkeycmp (o_vstig q) (v_id m) with
  | None => UB
  | Some vs =>
      vs' <- rremove obj_hash obj_cmp vs (v_key m) ;;
      Ok (pmodify uintkeyhash intkeycmp (o_vstig q) (v_id m) (fun _ => vs'))
  end.

(** buzzoutmsg_queue_next, buzzoutmsg.c 446-485. *)
Definition oq_next (q : oq) : res oq :=
  match o_bc q with
  | _ :: t => Ok (set_bc q t)
  | [] =>
  match o_list q with
  | _ :: t => Ok (set_swarm q t (o_join q) (o_leave q))
  | [] =>
  match o_put q with
  | m :: t => d <- forget q m ;; Ok (set_vs q true t d)
  | [] =>
  match o_query q with
  | m :: t => d <- forget q m ;; Ok (set_vs q false t d)
  | [] =>
  match o_join q with
  | _ :: t => Ok (set_swarm q [] t (o_leave q))
  | [] =>
  match o_leave q with
  | _ :: t => Ok (set_swarm q [] [] t)
  | [] => Ok q
  end end end end end end.

(** Histories; [OSend] is one round of buzzoutmsg_queue_first and buzzoutmsg_queue_next. *)
Inductive oop :=
| OBroadcast (topic value : obj)
| OList (ids : pdict Z Z)
| OJoin (id : Z)
| OLeave (id : Z)
| OVstig (put : bool) (id : Z) (key : obj) (data : velem)
| OSend.
Definition oq_step (q : oq) (o : oop) : res (oq * list omsg) :=
  match o with
  | OBroadcast t v => Ok (append_broadcast q t v, [])
  | OList ids => Ok (append_swarm_list q ids, [])
  | OJoin id => q' <- append_joinleave q true id ;; Ok (q', [])
  | OLeave id => q' <- append_joinleave q false id ;; Ok (q', [])
  | OVstig put id key data => q' <- append_vstig q put id key data ;; Ok (q', [])
  | OSend => q' <- oq_next q ;; Ok (q', match oq_first q with Some m => [m] | None => [] end)
  end.
(** The state after a history, and the messages sent by each operation. *)
Fixpoint oq_run (q : oq) (ops : list oop) : res (oq * list (list omsg)) :=
  match ops with
  | [] => Ok (q, [])
  | o :: t => '(q1, s) <- oq_step q o ;; '(q2, s') <- oq_run q1 t ;; Ok (q2, s :: s')
  end.
