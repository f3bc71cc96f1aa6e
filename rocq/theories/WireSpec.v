(** Specification of the object codec: which objects can be transmitted, and what "equal at
    the receiver" means. *)
From Verif Require Import Base Float Dict PDict Strman Msg Obj Wire.

(** Values that work as table keys at any robot: integers, floats that convert to uint32_t
    (and are not the negative zero, whose sign is not transmitted), strings. *)
Definition wkey_ok (k : wobj) : Prop :=
  match k with
  | WInt _ => True
  | WFloat f => (exists u, f_to_uint32 f = Ok u) /\ f <> S754_zero true
  | WStr _ _ => True
  | _ => False
  end.
(** Two keys can be compared, in this order, and are different. *)
Definition kdiff (a b : wobj) : Prop := exists c, wcmp a b = Ok c /\ c <> 0.
(** No two keys of a list of entries are equal. *)
Fixpoint keys_distinct (l : list (wobj * wobj)) : Prop :=
  match l with
  | [] => True
  | e :: t => Forall (fun e' => kdiff (fst e') (fst e)) t /\ keys_distinct t
  end.

(** Serialisable objects: finite floats, strings below 65536 bytes (a C string contains no
    NUL), tables of at most 255 entries, closures without captured variables. *)
Inductive wok : wobj -> Prop :=
| wok_nil : wok WNil
| wok_int z : int32_range z -> wok (WInt z)
| wok_float f : valid_f32 f = true -> finite_f32 f = true -> wok (WFloat f)
| wok_str sid s : zlen s < 65536 -> Forall (fun b => b <> 0) s -> wok (WStr sid s)
| wok_tab bs : zlen (concat bs) <= 255 ->
    Forall (fun e => wok (fst e) /\ wkey_ok (fst e) /\ wok (snd e)) (concat bs) ->
    keys_distinct (concat bs) -> wok (WTab bs)
| wok_clos n r : 0 <= n < 256 -> int32_range r -> wok (WClos n r 1).

(** Equality across robots: string ids are local to a robot, the zero is unsigned, and a
    table is the finite map from keys to values: the entries match one to one, and each is
    found under its key at the receiver. *)
Inductive weq : wobj -> wobj -> Prop :=
| weq_nil : weq WNil WNil
| weq_int z : weq (WInt z) (WInt z)
| weq_float f : (forall s, f <> S754_zero s) -> weq (WFloat f) (WFloat f)
| weq_zero s : weq (WFloat (S754_zero s)) (WFloat (S754_zero false))
| weq_str i j s : weq (WStr i s) (WStr j s)
| weq_tab bs bs' l : Permutation (concat bs') l ->
    Forall2 (fun e e' => weq (fst e) (fst e') /\ weq (snd e) (snd e')) (concat bs) l ->
    (forall k v, In (k, v) l -> rget whash wcmp bs' k = Ok (Some v)) ->
    weq (WTab bs) (WTab bs')
| weq_clos n r : weq (WClos n r 1) (WClos n r 1).
