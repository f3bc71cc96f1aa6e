(** Histories of client operations on the modelled buzzdict; the third component is the log
    of entries handed to the destructor. *)
From Verif Require Import Base Dict DictSpec.

Section Run.
Context {K V : Type}.
Variables (hashf : K -> Z) (keycmpf : K -> K -> Z).

(** Operations of buzzdict.h: set, get, exists (h 220), remove, size (h 207), foreach. *)
Definition dict_step (d : dict K V) (o : mop K V)
  : res (dict K V * mout K V * list (K * V)) :=
  match o with
  | MSet k v => '(d', g) <- dict_set hashf keycmpf d k v ;; Ok (d', MUnit, g)
  | MGet k => x <- dict_get hashf keycmpf d k ;; Ok (d, MVal x, [])
  | MExists k => x <- dict_get hashf keycmpf d k ;;
                 Ok (d, MBool (match x with Some _ => true | None => false end), [])
  | MRemove k => '(d', b, g) <- dict_remove hashf keycmpf d k ;; Ok (d', MBool b, g)
  | MSize => Ok (d, MNum (dsize d), [])
  | MForeach => Ok (d, MEntries (dict_entries d), [])
  end.

Fixpoint dict_run (d : dict K V) (ops : list (mop K V))
  : res (dict K V * list (mout K V) * list (K * V)) :=
  match ops with
  | [] => Ok (d, [], [])
  | o :: t => '(d1, x, g) <- dict_step d o ;;
              '(d2, xs, gs) <- dict_run d1 t ;;
              Ok (d2, x :: xs, g ++ gs)
  end.
End Run.
