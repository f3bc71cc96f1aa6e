(** Model of neighbors.listen(), neighbors.ignore() and neighbors.broadcast() (src/buzz/buzzneighbors.c
    136-186) and of the reception of broadcasts (src/buzz/buzzvm.c 250-275).

    Objects in messages are trees ([wobj], Wire.v): [snapshot] makes one from an object of the VM, [import]
    puts one in the heap of the VM. *)
From Verif Require Import Base Float Dict PDict Strman Msg Obj Wire Instr Vm Strlib InMsg OutMsg Messages.

(** The parts of the VM used here: listeners (buzzvm.c 567-572, 10 buckets, keys are string ids), queue
    of received messages, broadcasts waiting to be sent (the first queue of OutMsg.v). *)
Record lext := mkLx { lx_listen : pdict Z obj; lx_in : inq payload; lx_out : list (wobj * wobj) }.
Definition set_listen (x : lext) d := mkLx d (lx_in x) (lx_out x).
Definition set_in (x : lext) q := mkLx (lx_listen x) q (lx_out x).
Definition set_out (x : lext) q := mkLx (lx_listen x) (lx_in x) q.
Definition lis_get := pget (V:=obj) int16keyhash int16keycmp.
Definition lis_set := pset (V:=obj) int16keyhash int16keycmp.
Definition lis_remove := premove (V:=obj) int16keyhash int16keycmp.
Notation lvm := (vm lext).
Implicit Types v : lvm.

(** The clone of an object that buzzoutmsg_queue_append_broadcast makes (buzzoutmsg.c 149-150), as the
    tree of its contents; buzzheap_clone itself is in Heap.v.  A table that contains itself is cloned forever. *)
Fixpoint snapshot (fuel : nat) (h : list table) (o : obj) : res wobj :=
  match fuel with
  | O => Hang
  | S f =>
      match o with
      | ONil => Ok WNil
      | OInt z => Ok (WInt z)
      | OFloat x => Ok (WFloat x)
      | OStr i s => Ok (WStr i s)
      | OClos n r act => Ok (WClos (if n then 1 else 0) r (zlen act))
      | OUser _ => Ok WUser
      | OTab a =>
          match (if 0 <=? a then nth_error h (Z.to_nat a) else None) with
          | None => UB
          | Some t =>
              (fix go (t : table) (acc : list (list (wobj * wobj))) : res wobj :=
                 match t with
                 | [] => Ok (WTab acc)
                 | b :: t' =>
                     (fix chain (l : list (obj * obj)) (acc1 : list (wobj * wobj)) : res wobj :=
                        match l with
                        | [] => go t' (acc ++ [acc1])
                        | (k, x) :: l' => k' <- snapshot f h k ;; x' <- snapshot f h x ;; chain l' (acc1 ++ [(k', x')])
                        end) b []
                 end) t []
          end
      end
  end.

(** buzzneighbors_broadcast, buzzneighbors.c 136-149, and buzzoutmsg_queue_append_broadcast, buzzoutmsg.c 143-153. *)
Definition nb_broadcast (fuel : nat) v : res lvm :=
  lnum_assert v 2 (
    v1 <- vm_lload v 1 ;;
    type_assert v1 1 T_STRING (
      v2 <- vm_lload v1 2 ;;
      t <- stack_at v2 2 ;; o <- stack_at v2 1 ;;
      t' <- snapshot fuel (v_heap v2) t ;; o' <- snapshot fuel (v_heap v2) o ;;
      vm_ret0 (set_ext v2 (set_out (v_ext v2) (lx_out (v_ext v2) ++ [(t', o')]))))).
(** buzzneighbors_listen, buzzneighbors.c 154-168. *)
Definition nb_listen v : res lvm :=
  lnum_assert v 2 (
    v1 <- vm_lload v 1 ;;
    type_assert v1 1 T_STRING (
      v2 <- vm_lload v1 2 ;;
      type_assert v2 1 T_CLOSURE (
        t <- stack_at v2 2 ;; c <- stack_at v2 1 ;;
        match t with
        | OStr sid _ => vm_ret0 (set_ext v2 (set_listen (v_ext v2) (lis_set (lx_listen (v_ext v2)) sid c)))
        | _ => UB
        end))).
(** buzzneighbors_ignore, buzzneighbors.c 173-183. *)
Definition nb_ignore v : res lvm :=
  lnum_assert v 1 (
    v1 <- vm_lload v 1 ;;
    type_assert v1 1 T_STRING (
      t <- stack_at v1 1 ;;
      match t with
      | OStr sid _ => vm_ret0 (set_ext v1 (set_listen (v_ext v1) (lis_remove (lx_listen (v_ext v1)) sid)))
      | _ => UB
      end)).

(** Received objects as objects of the VM (buzzheap_newobj in buzztype.c 583): every table gets an
    address; hash and order of keys do not depend on addresses of tables, which are not keys. *)
Fixpoint import (w : wobj) (h : list table) : obj * list table :=
  match w with
  | WNil => (ONil, h)
  | WInt z => (OInt z, h)
  | WFloat f => (OFloat f, h)
  | WStr i s => (OStr i s, h)
  | WClos n r _ => (OClos (negb (n =? 0)) r [ONil], h)
  | WUser => (OUser 0, h)
  | WTab bs =>
      let a := length h in
      let '(t, h') :=
        (fix go (bs : list (list (wobj * wobj))) (h : list table) : table * list table :=
           match bs with
           | [] => ([], h)
           | b :: r =>
               let '(b', h1) :=
                 (fix chain (l : list (wobj * wobj)) (h : list table) : list (obj * obj) * list table :=
                    match l with
                    | [] => ([], h)
                    | (k, x) :: l' =>
                        let '(k', h1) := import k h in
                        let '(x', h2) := import x h1 in
                        let '(l'', h3) := chain l' h2 in ((k', x') :: l'', h3)
                    end) b h in
               let '(r', h2) := go r h1 in (b' :: r', h2)
           end) bs (h ++ [tab_new]) in
      (OTab (Z.of_nat a), upd h' a t)
  end.

Section Run.
Variable flist : list (lvm -> res lvm).
Variable powf : libm.
Variable code : Z -> Z.
Variable size : Z.
Variable fuel : nat.
Variable has_vstig : Z -> bool.
(** The other kinds of messages (Vstig.v, Swarm.v). *)
Variable other : lvm -> Z -> wmsg -> res lvm.

(** One round of the loop of buzzvm_process_inmsgs, buzzvm.c 248-481. *)
Definition handle v (rid : Z) (msg : payload) : res lvm :=
  '(p, sm) <- recv (fun sid => match lis_get (lx_listen (v_ext v)) sid with Some _ => true | None => false end) has_vstig msg (v_str v) ;;
  let v := set_str v sm in
  match p with
  | PMsg (WBroadcast (WStr sid s) w) =>
      match lis_get (lx_listen (v_ext v)) sid with
      | None => Ok v
      | Some l =>
          let '(x, h) := import w (v_heap v) in
          let v1 := push (push (push (push (set_heap v h) l) (OStr sid s)) x) (OInt rid) in
          v2 <- closure_call flist powf code size fuel v1 3 ;; Ok (vm_pop v2)
      end
  | PMsg m => other v rid m
  | PMalformed | PIgnored => Ok v
  end.
(** The loop, buzzvm.c 240-481; the ageing of memberships after it (483) is in Swarm.v. *)
Fixpoint process_inmsgs (rounds : nat) v : res lvm :=
  match rounds with
  | O => Hang
  | S n =>
      if inq_isempty (lx_in (v_ext v)) then Ok v
      else if negb (is_ready (v_state v)) then Ok v
      else
        '(m, q) <- inq_extract (lx_in (v_ext v)) ;;
        match m with
        | None => UB
        | Some (rid, msg) =>
            v1 <- handle (set_ext v (set_in (v_ext v) q)) rid msg ;; process_inmsgs n v1
        end
  end.
End Run.
