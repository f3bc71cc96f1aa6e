(** Specification for dynamic arrays: plain lists. Nothing here refers to capacities,
    memory or the implementation. *)
From Verif Require Import Base.

Section Spec.
Context {A : Type}.

(** The operations a client can perform.  Positions are uint32_t values. *)
Inductive dop :=
| OpPush (v : A) | OpPop
| OpInsert (pos : Z) (v : A) | OpSet (pos : Z) (v : A)
| OpRemove (pos : Z) | OpClear (cap : Z) | OpClone
| OpGet (pos : Z) | OpLast | OpSize | OpForeach.

(** What the client observes. *)
Inductive dout :=
| OutUnit | OutElem (v : A) | OutSize (n : Z) | OutElems (l : list A)
| OutGone (l : list A).  (* elements handed to the destructor *)

(** Operations inside the documented range. *)
Definition op_valid (l : list A) (o : dop) : Prop :=
  match o with
  | OpInsert pos _ => 0 <= pos <= zlen l
  | OpSet pos _ => 0 <= pos < zlen l
  | OpGet pos => 0 <= pos < zlen l
  | OpLast => l <> []
  | OpRemove pos => 0 <= pos < 2 ^ 32
  | OpClear cap => 0 < cap
  | _ => True
  end.

Definition spec_step (l : list A) (o : dop) : list A * dout :=
  match o with
  | OpPush v => (l ++ [v], OutUnit)
  | OpPop => (removelast l, OutGone (skipn (length l - 1) l))
  | OpInsert pos v => (firstn (Z.to_nat pos) l ++ v :: skipn (Z.to_nat pos) l, OutUnit)
  | OpSet pos v => (firstn (Z.to_nat pos) l ++ v :: skipn (S (Z.to_nat pos)) l, OutUnit)
  | OpRemove pos =>
      (firstn (Z.to_nat pos) l ++ skipn (S (Z.to_nat pos)) l,
       OutGone (firstn 1 (skipn (Z.to_nat pos) l)))
  | OpClear _ => ([], OutGone l)
  | OpClone => (l, OutUnit)
  | OpGet pos => (l, match nth_error l (Z.to_nat pos) with
                     | Some v => OutElem v | None => OutUnit end)
  | OpLast => (l, match rev l with v :: _ => OutElem v | [] => OutUnit end)
  | OpSize => (l, OutSize (zlen l))
  | OpForeach => (l, OutElems l)
  end.

Fixpoint spec_run (l : list A) (ops : list dop) : list A * list dout :=
  match ops with
  | [] => (l, [])
  | o :: t => let '(l1, x) := spec_step l o in
              let '(l2, xs) := spec_run l1 t in (l2, x :: xs)
  end.

(** Every operation of the history is inside its range, and the storage the array may need
    (at most twice the element count plus two, or the requested capacity) is below 4 GiB. *)
Fixpoint history_ok (esz : Z) (l : list A) (ops : list dop) : Prop :=
  match ops with
  | [] => True
  | o :: t =>
      op_valid l o /\
      2 * (zlen l + 1) * esz < 2 ^ 32 /\
      match o with OpClear cap => cap * esz < 2 ^ 32 | _ => True end /\
      history_ok esz (fst (spec_step l o)) t
  end.

(** Sortedness with respect to a comparator. *)
Definition total_preorder (cmp : A -> A -> Z) : Prop :=
  (forall a b, cmp a b < 0 <-> cmp b a > 0) /\
  (forall a b c, cmp a b <= 0 -> cmp b c <= 0 -> cmp a c <= 0).

Definition sorted_by (cmp : A -> A -> Z) (l : list A) : Prop :=
  forall i j a b, (i <= j)%nat -> nth_error l i = Some a -> nth_error l j = Some b ->
                  cmp a b <= 0.

End Spec.
Arguments dop A : clear implicits.
Arguments dout A : clear implicits.
