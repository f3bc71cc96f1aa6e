(** Histories of client operations on the modelled buzzdarray. *)
From Verif Require Import Base Darray DarraySpec.

Section Run.
Context {A : Type}.

(** One client operation of the API of src/buzz/buzzdarray.h on the model of Darray.v;
    OpClone continues with the copy returned by buzzdarray_clone. *)
Definition da_step (d : darray A) (o : dop A) : res (darray A * dout A) :=
  match o with
  | OpPush v => d' <- da_push d v ;; Ok (d', OutUnit)
  | OpPop => '(d', g) <- da_pop d ;; Ok (d', OutGone g)
  | OpInsert pos v => d' <- da_insert d pos v ;; Ok (d', OutUnit)
  | OpSet pos v => d' <- da_set d pos v ;; Ok (d', OutUnit)
  | OpRemove pos => '(d', g) <- da_remove d pos ;; Ok (d', OutGone g)
  | OpClear cap => '(d', g) <- da_clear d cap ;; Ok (d', OutGone g)
  | OpClone => d' <- da_clone d ;; Ok (d', OutUnit)
  | OpGet pos => x <- da_get d pos ;; Ok (d, OutElem x)
  | OpLast => x <- da_last d ;; Ok (d, OutElem x)
  | OpSize => Ok (d, OutSize (d_size d))
  | OpForeach => l <- da_foreach d ;; Ok (d, OutElems l)
  end.

Fixpoint da_run (d : darray A) (ops : list (dop A)) : res (darray A * list (dout A)) :=
  match ops with
  | [] => Ok (d, [])
  | o :: t => '(d1, x) <- da_step d o ;;
              '(d2, xs) <- da_run d1 t ;;
              Ok (d2, x :: xs)
  end.
End Run.
