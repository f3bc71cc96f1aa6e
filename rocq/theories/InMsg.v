(** Model of src/buzz/buzzinmsg.c: the queue of received messages, a dictionary of 20 buckets
    from robot ids (uint16_t) to arrays of payloads.  Payloads are opaque. *)
From Verif Require Import Base Dict PDict.

Section InMsg.
Context {P : Type}.

Definition inq := pdict Z (list P).

(** buzzinmsg_queue_new, buzzinmsg.h 54. *)
Definition inq_new : inq := pnew 20.

(** buzzinmsg_queue_append, buzzinmsg.c 20-34. *)
Definition inq_append (q : inq) (rid : Z) (p : P) : inq :=
  let q1 := match pget uintkeyhash intkeycmp q rid with
            | Some _ => q
            | None => pset uintkeyhash intkeycmp q rid []
            end in
  pmodify uintkeyhash intkeycmp q1 rid (fun l => l ++ [p]).

(** The search of buzzinmsg.c 50-61: the first entry of the first bucket in use. *)
Fixpoint first_entry (q : inq) : option (Z * list P) :=
  match q with
  | [] => None
  | [] :: t => first_entry t
  | (e :: _) :: _ => Some e
  end.
(** Writing through the pointer to the array of that entry. *)
Fixpoint set_first (q : inq) (l : list P) : inq :=
  match q with
  | [] => []
  | [] :: t => [] :: set_first t l
  | (e :: b) :: t => ((fst e, l) :: b) :: t
  end.

(** buzzinmsg_queue_isempty, buzzinmsg.h 75. *)
Definition inq_isempty (q : inq) : bool := psize q =? 0.

(** buzzinmsg_queue_extract, buzzinmsg.c 44-69.  The last element of an empty array, or of an
    array that was not found, is undefined. *)
Definition inq_extract (q : inq) : res (option (Z * P) * inq) :=
  if inq_isempty q then Ok (None, q)
  else match first_entry q with
       | None => UB
       | Some (rid, l) =>
           match rev l with
           | [] => UB
           | p :: r =>
               let q1 := set_first q (rev r) in
               Ok (Some (rid, p),
                   match r with [] => premove uintkeyhash intkeycmp q1 rid | _ => q1 end)
           end
       end.

(** Histories. *)
Inductive iop := IAppend (rid : Z) (p : P) | IExtract.
Fixpoint inq_run (q : inq) (ops : list iop) : res (inq * list (option (Z * P))) :=
  match ops with
  | [] => Ok (q, [])
  | IAppend r p :: t => inq_run (inq_append q r p) t
  | IExtract :: t =>
      '(o, q1) <- inq_extract q ;;
      '(q2, os) <- inq_run q1 t ;; Ok (q2, o :: os)
  end.
End InMsg.
Arguments inq P : clear implicits.
Arguments iop P : clear implicits.
