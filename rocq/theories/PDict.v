(** The dictionary operations of Dict.v on well-formed tables, as total functions: a table is
    the list of its buckets (an unused bucket and an empty one are not distinguished).
    DictProofs.v proves that on every table reachable through the API the operations of
    Dict.v return [Ok] of these.  Higher layers of the model use them. *)
From Verif Require Import Base.

Section PDict.
Context {K V : Type}.
Variable hashf : K -> Z.
Variable keycmpf : K -> K -> Z.

Definition pdict := list (list (K * V)).

(** buzzdict_new, buzzdict.c 28-47. *)
Definition pnew (nb : Z) : pdict := repeat [] (Z.to_nat nb).

Definition pslot (p : pdict) (k : K) : nat := Z.to_nat (hashf k mod zlen p).
Definition pbucket (p : pdict) (k : K) : list (K * V) := nth (pslot p k) p [].

Fixpoint del_first (k : K) (l : list (K * V)) : list (K * V) :=
  match l with
  | [] => []
  | e :: t => if keycmpf k (fst e) =? 0 then t else e :: del_first k t
  end.
Fixpoint find_first (k : K) (l : list (K * V)) : option (K * V) :=
  match l with
  | [] => None
  | e :: t => if keycmpf k (fst e) =? 0 then Some e else find_first k t
  end.

(** buzzdict_rawget, buzzdict.c 76-90. *)
Definition pget (p : pdict) (k : K) : option V :=
  match find_first k (pbucket p k) with Some e => Some (snd e) | None => None end.
(** buzzdict_set, buzzdict.c 95-129. *)
Definition pset (p : pdict) (k : K) (v : V) : pdict :=
  upd p (pslot p k) (del_first k (pbucket p k) ++ [(k, v)]).
(** buzzdict_remove, buzzdict.c 134-158. *)
Definition premove (p : pdict) (k : K) : pdict :=
  upd p (pslot p k) (del_first k (pbucket p k)).
(** buzzdict_foreach, buzzdict.c 163-178. *)
Definition pentries (p : pdict) : list (K * V) := concat p.
(** buzzdict_size, buzzdict.h 207. *)
Definition psize (p : pdict) : Z := zlen (pentries p).
End PDict.
Arguments pdict K V : clear implicits.

(** In-place modification of the data of an entry through the pointer returned by
    buzzdict_get (the entry does not move). *)
Definition pmodify {K V} (hashf : K -> Z) (keycmpf : K -> K -> Z) (p : pdict K V) (k : K)
  (f : V -> V) : pdict K V :=
  upd p (pslot hashf p k)
      (map (fun e => if keycmpf k (fst e) =? 0 then (fst e, f (snd e)) else e)
           (pbucket hashf p k)).
