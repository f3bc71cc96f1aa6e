(** Model of whole messages: how buzzoutmsg_queue_first (src/buzz/buzzoutmsg.c 365-441) writes
    them and how buzzvm_process_inmsgs (src/buzz/buzzvm.c 239-485) reads them.

    What is done with a message after reading it is in Vstig.v, Swarm.v and Listen.v. *)
From Verif Require Import Base Float Dict PDict Strman Msg Obj Wire.

(** The messages; keys and values as the codec sees them. *)
Inductive wmsg :=
| WBroadcast (topic value : wobj)
| WList (ids : list Z)
| WPut (id : Z) (key value : wobj) (ts robot : Z)
| WQuery (id : Z) (key value : wobj) (ts robot : Z)
| WJoin (id : Z)
| WLeave (id : Z).

(** buzzmsg_type, buzzmsg.h 14-22. *)
Definition BUZZMSG_BROADCAST := 0.
Definition BUZZMSG_SWARM_LIST := 1.
Definition BUZZMSG_VSTIG_PUT := 2.
Definition BUZZMSG_VSTIG_QUERY := 3.
Definition BUZZMSG_SWARM_JOIN := 4.
Definition BUZZMSG_SWARM_LEAVE := 5.

(** buzzvstig_elem_serialize, buzzvstig.c 117-124. *)
Definition elem_ser (buf : payload) (k v : wobj) (ts robot : Z) : res payload :=
  b1 <- obj_ser buf k ;; b2 <- obj_ser b1 v ;; Ok (ser_u16 (ser_u16 b2 ts) robot).
(** buzzoutmsg_queue_first, buzzoutmsg.c 365-441, for each kind of message.  The number of swarms is
    a uint16_t (buzzoutmsg.c 28). *)
Definition enc_msg (m : wmsg) : res payload :=
  match m with
  | WBroadcast t v => b <- obj_ser (ser_u8 [] BUZZMSG_BROADCAST) t ;; obj_ser b v
  | WList ids => Ok (fold_left ser_u16 ids (ser_u16 (ser_u8 [] BUZZMSG_SWARM_LIST) (zlen ids)))
  | WPut id k v ts r => elem_ser (ser_u16 (ser_u8 [] BUZZMSG_VSTIG_PUT) id) k v ts r
  | WQuery id k v ts r => elem_ser (ser_u16 (ser_u8 [] BUZZMSG_VSTIG_QUERY) id) k v ts r
  | WJoin id => Ok (ser_u16 (ser_u8 [] BUZZMSG_SWARM_JOIN) id)
  | WLeave id => Ok (ser_u16 (ser_u8 [] BUZZMSG_SWARM_LEAVE) id)
  end.

(** buzzvstig_elem_deserialize, buzzvstig.c 129-150. *)
Definition elem_deser (buf : payload) (pos : Z) (sm : strman) : res (option (wobj * wobj * Z * Z) * strman) :=
  '(rk, sm1) <- deser buf pos sm ;;
  match rk with
  | None => Ok (None, sm1)
  | Some (k, p1) =>
      '(rv, sm2) <- deser buf p1 sm1 ;;
      match rv with
      | None => Ok (None, sm2)
      | Some (v, p2) =>
          rt <- de_u16 buf p2 ;;
          match rt with
          | None => Ok (None, sm2)
          | Some (ts, p3) =>
              rr <- de_u16 buf p3 ;;
              match rr with
              | None => Ok (None, sm2)
              | Some (r, _) => Ok (Some (k, v, ts, r), sm2)
              end
          end
      end
  end.

(** What reading gives: a message, nothing (a warning is printed), or nothing because nobody is
    interested: no listener, no stigmergy with this id (PUT only), an empty list of swarms, or an
    unknown type. *)
Inductive parsed := PMsg (m : wmsg) | PMalformed | PIgnored.

(** The loop of the list of swarms, buzzvm.c 445-451: the error leaves the loop, but the list
    with its last slot uninitialised is used all the same. *)
Fixpoint de_ids (n : nat) (buf : payload) (pos : Z) : res (list Z) :=
  match n with
  | O => Ok []
  | S n' =>
      r <- de_u16 buf pos ;;
      match r with
      | None => UB
      | Some (i, p) => l <- de_ids n' buf p ;; Ok (i :: l)
      end
  end.
(** buzzvm_process_inmsgs, buzzvm.c 248-479: reading a message.  [listening sid]: there is a listener
    for the topic with this string id; [has_vstig id]: there is such a stigmergy.  A failed
    deserialization of the topic or of the value is not noticed (251-263): the pointer is not
    initialised, or points to an object that is not what it should be. *)
Definition recv (listening has_vstig : Z -> bool) (buf : payload) (sm : strman) : res (parsed * strman) :=
  ty <- byte_at buf 0 ;;
  if ty =? BUZZMSG_BROADCAST then
    '(rt, sm1) <- deser buf 1 sm ;;
    match rt with
    | Some (WStr sid s, p) =>
        if listening sid then
          '(rv, sm2) <- deser buf p sm1 ;;
          match rv with
          | Some (v, _) => Ok (PMsg (WBroadcast (WStr sid s) v), sm2)
          | None => UB
          end
        else Ok (PIgnored, sm1)
    | _ => UB
    end
  else if (ty =? BUZZMSG_VSTIG_PUT) || (ty =? BUZZMSG_VSTIG_QUERY) then
    r <- de_u16 buf 1 ;;
    match r with
    | None => Ok (PMalformed, sm)
    | Some (id, p) =>
        if (ty =? BUZZMSG_VSTIG_PUT) && negb (has_vstig id) then Ok (PIgnored, sm)
        else
          '(re, sm1) <- elem_deser buf p sm ;;
          match re with
          | None => Ok (PMalformed, sm1)
          | Some (k, v, ts, rb) => Ok (PMsg (if ty =? BUZZMSG_VSTIG_PUT then WPut id k v ts rb else WQuery id k v ts rb), sm1)
          end
    end
  else if ty =? BUZZMSG_SWARM_LIST then
    r <- de_u16 buf 1 ;;
    match r with
    | None => Ok (PMalformed, sm)
    | Some (n, p) =>
        if n <? 1 then Ok (PIgnored, sm)
        else ids <- de_ids (Z.to_nat n) buf p ;; Ok (PMsg (WList ids), sm)
    end
  else if (ty =? BUZZMSG_SWARM_JOIN) || (ty =? BUZZMSG_SWARM_LEAVE) then
    r <- de_u16 buf 1 ;;
    match r with
    | None => Ok (PMalformed, sm)
    | Some (id, _) => Ok (PMsg (if ty =? BUZZMSG_SWARM_JOIN then WJoin id else WLeave id), sm)
    end
  else Ok (PIgnored, sm).
