(** Model of src/buzz/buzzdict.c (hash table with chaining in dynamic arrays).

    A bucket is a NULL pointer ([None]) or a dynamic array of entries (a list; the array
    operations used here - push, remove at a found position, get below the size - stay in
    the range covered by C01).  Keys and data are copied into the table, so an entry is a
    pair of values.  [dstryf] is modelled by a log of the entries passed to it.
    Simplification: allocation succeeds. *)
From Verif Require Import Base.

Section Dict.
Context {K V : Type}.
Variable hashf : K -> Z.          (* dt->hashf, a uint32_t *)
Variable keycmpf : K -> K -> Z.   (* dt->keycmpf *)

(** struct buzzdict_s, buzzdict.h 47-56. *)
Record dict := mkDict {
  num_buckets : Z;
  buckets : list (option (list (K * V)));
  dsize : Z
}.

(** buzzdict_new, buzzdict.c 28-47. *)
Definition dict_new (nb : Z) : dict := mkDict nb (repeat None (Z.to_nat nb)) 0.

(** hashf(key) % num_buckets and the load of buckets[h], buzzdict.c 79-81. *)
Definition bucket_of (dt : dict) (k : K) : res (nat * option (list (K * V))) :=
  if num_buckets dt =? 0 then UB
  else let h := Z.to_nat (hashf k mod num_buckets dt) in
       match nth_error (buckets dt) h with
       | Some b => Ok (h, b)
       | None => UB
       end.

(** The search loops of buzzdict.c 83-87, 113-122, 141-155: first position whose key
    compares equal, with its entry. *)
Fixpoint chain_find (k : K) (l : list (K * V)) (i : nat) : option (nat * (K * V)) :=
  match l with
  | [] => None
  | e :: t => if keycmpf k (fst e) =? 0 then Some (i, e) else chain_find k t (S i)
  end.

(** buzzdict_rawget, buzzdict.c 76-90. *)
Definition dict_get (dt : dict) (k : K) : res (option V) :=
  '(h, b) <- bucket_of dt k ;;
  match b with
  | None => Ok None
  | Some l => match chain_find k l 0 with
              | Some (_, e) => Ok (Some (snd e))
              | None => Ok None
              end
  end.

(** buzzdict_set, buzzdict.c 95-129.  Second component: entries given to dstryf. *)
Definition dict_set (dt : dict) (k : K) (v : V) : res (dict * list (K * V)) :=
  '(h, b) <- bucket_of dt k ;;
  match b with
  | None => Ok (mkDict (num_buckets dt) (upd (buckets dt) h (Some [(k, v)]))
                       (wrap32 (dsize dt + 1)), [])
  | Some l =>
      let '(l1, sz1, gone) :=
        match chain_find k l 0 with
        | Some (i, e) => (del l i, wrap32 (dsize dt - 1), [e])
        | None => (l, dsize dt, [])
        end in
      Ok (mkDict (num_buckets dt) (upd (buckets dt) h (Some (l1 ++ [(k, v)])))
                 (wrap32 (sz1 + 1)), gone)
  end.

(** buzzdict_remove, buzzdict.c 134-158. *)
Definition dict_remove (dt : dict) (k : K) : res (dict * bool * list (K * V)) :=
  '(h, b) <- bucket_of dt k ;;
  match b with
  | None => Ok (dt, false, [])
  | Some l =>
      match chain_find k l 0 with
      | None => Ok (dt, false, [])
      | Some (i, e) =>
          let l1 := del l i in
          Ok (mkDict (num_buckets dt)
                     (upd (buckets dt) h (match l1 with [] => None | _ => Some l1 end))
                     (wrap32 (dsize dt - 1)), true, [e])
      end
  end.

(** buzzdict_foreach, buzzdict.c 163-178: the entries in visiting order. *)
Definition dict_entries (dt : dict) : list (K * V) :=
  concat (map (fun b => match b with None => [] | Some l => l end) (buckets dt)).

(** buzzdict_destroy, buzzdict.c 52-71: the entries passed to dstryf, in order. *)
Definition dict_destroy (dt : dict) : list (K * V) := dict_entries dt.

End Dict.
Arguments dict K V : clear implicits.
Arguments mkDict {K V}.

(** buzzdict_*keycmp for the integer types, buzzdict.c 215-225. *)
Definition intkeycmp (a b : Z) : Z := if a <? b then -1 else if a >? b then 1 else 0.

(** buzzdict_*keyhash for the integer types, buzzdict.c 230-238: conversion of the key to
    uint32_t.  The int16 version reinterprets the 16 bits of the key as a signed number. *)
Definition uintkeyhash (k : Z) : Z := wrap32 k.
Definition int16keyhash (k : Z) : Z :=
  let w := wrap16 k in wrap32 (if w <? 2 ^ 15 then w else w - 2 ^ 16).
(** buzzdict_int16keycmp on the same reinterpretation. *)
Definition int16_of (k : Z) : Z := let w := wrap16 k in if w <? 2 ^ 15 then w else w - 2 ^ 16.
Definition int16keycmp (a b : Z) : Z := intkeycmp (int16_of a) (int16_of b).

(** buzzdict_strkeyhash, buzzdict.c 183-203, on the characters of the string before its
    terminating NUL (a char is signed on the usual targets; bytes are 0..255 here). *)
Definition schar (c : Z) : Z := if c <? 128 then c else c - 256.
Definition strkeyhash (s : list Z) : Z :=
  fold_left (fun h c => wrap32 (wrap32 (wrap32 (h * 32) + h) + schar c)) s 5381.

(** strcmp (buzzdict_strkeycmp, buzzdict.c 208): sign of the first difference, bytes taken as
    unsigned, a missing byte counting as 0. *)
Fixpoint strcmp (a b : list Z) : Z :=
  match a, b with
  | [], [] => 0
  | [], _ :: _ => -1
  | _ :: _, [] => 1
  | x :: s, y :: t => if x <? y then -1 else if x >? y then 1 else strcmp s t
  end.
