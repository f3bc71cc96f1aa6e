(** Specification of the string manager: a partial map from live strings to (id, protected). *)
From Verif Require Import Base Strman.

Inductive smop := SmReg (s : str) (protect : bool) | SmGet (id : Z) | SmGc (marks : list Z).
Inductive smout := SmId (id : Z) | SmStr (s : option str) | SmDone.
Definition livemap := str -> option (Z * bool).

Definition str_dec : forall a b : str, {a = b} + {a <> b} := list_eq_dec Z.eq_dec.
Definition lm_set (M : livemap) (s : str) (x : Z * bool) : livemap :=
  fun t => if str_dec t s then Some x else M t.

(** One operation: live strings before, operation, answer, live strings after. *)
Definition sm_spec (M : livemap) (o : smop) (out : smout) (M' : livemap) : Prop :=
  match o with
  | SmReg s p =>
      exists id, out = SmId id /\ 0 <= id < 65536 /\
        match M s with
        | Some (id0, q) => id = id0 /\ forall t, M' t = lm_set M s (id, q || p) t
        | None => (forall t q, M t <> Some (id, q)) /\ forall t, M' t = lm_set M s (id, p) t
        end
  | SmGet id => (exists r, out = SmStr r /\ forall s, r = Some s <-> exists q, M s = Some (id, q)) /\
                forall t, M' t = M t
  | SmGc marks => out = SmDone /\
      forall t, M' t = match M t with
                       | Some (id, q) => if q || existsb (Z.eqb id) marks then Some (id, q) else None
                       | None => None
                       end
  end.

Inductive sm_trace : livemap -> list smop -> list smout -> livemap -> Prop :=
| tr_nil M M' : (forall t, M' t = M t) -> sm_trace M [] [] M'
| tr_cons M o out M1 ops outs M2 :
    sm_spec M o out M1 -> sm_trace M1 ops outs M2 -> sm_trace M (o :: ops) (out :: outs) M2.

(** Running the model. *)
Definition sm_step (sm : strman) (o : smop) : res (strman * smout) :=
  match o with
  | SmReg s p => '(sm', id) <- sm_register sm_fuel sm s p ;; Ok (sm', SmId id)
  | SmGet id => Ok (sm, SmStr (sm_get sm id))
  | SmGc marks => sm' <- sm_gc sm marks ;; Ok (sm', SmDone)
  end.
Fixpoint sm_run (sm : strman) (ops : list smop) : res (strman * list smout) :=
  match ops with
  | [] => Ok (sm, [])
  | o :: t => '(sm1, x) <- sm_step sm o ;; '(sm2, xs) <- sm_run sm1 t ;; Ok (sm2, x :: xs)
  end.

(** Number of live strings (buzzdict_size of str2id, printed by buzzstrman_print). *)
Definition sm_live (sm : strman) : Z := zlen (PDict.pentries (str2id sm)).

(** Ids passed to get/mark are uint16_t values; before a registration fewer than 65534
    strings are live (hence fewer than 65535 afterwards). *)
Definition smop_ok (sm : strman) (o : smop) : Prop :=
  match o with
  | SmReg _ _ => sm_live sm < 65534
  | SmGet id => 0 <= id < 65536
  | SmGc marks => Forall (fun id => 0 <= id < 65536) marks
  end.
Fixpoint smhist_ok (sm : strman) (ops : list smop) : Prop :=
  match ops with
  | [] => True
  | o :: t => smop_ok sm o /\ match sm_step sm o with Ok (sm1, _) => smhist_ok sm1 t | _ => True end
  end.
