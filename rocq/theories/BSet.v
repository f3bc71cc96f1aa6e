(** Model of src/buzz/buzzset.c: an unbalanced binary search tree.
    Nodes own a copy of the element, so a node holds a value.  Calls of [dstryf] are logged:
    the log lists the elements whose data pointer was handed to it.  *)
From Verif Require Import Base.

Section BSet.
Context {A : Type}.
Variable cmpf : A -> A -> Z.   (* s->cmpf *)

(** struct buzzset_tree_s, buzzset.c 8-12. *)
Inductive tree := Leaf | Node (l : tree) (x : A) (r : tree).

(** struct buzzset_s, buzzset.h 35-41. *)
Record bset := mkBset { bs_data : tree; bs_size : Z }.

(** buzzset_tree_insert, buzzset.c 41-65: new tree and the value left in *added. *)
Fixpoint tree_insert (n : tree) (x : A) : tree * bool :=
  match n with
  | Leaf => (Node Leaf x Leaf, true)
  | Node l y r =>
      let res := cmpf x y in
      if res <? 0 then let '(l', b) := tree_insert l x in (Node l' y r, b)
      else if res >? 0 then let '(r', b) := tree_insert r x in (Node l y r', b)
      else (n, false)
  end.

(** buzzset_tree_foreach, buzzset.c 71-78: elements in visiting order. *)
Fixpoint tree_foreach (n : tree) : list A :=
  match n with
  | Leaf => []
  | Node l x r => x :: tree_foreach l ++ tree_foreach r
  end.

(** buzzset_tree_find_min, buzzset.c 84-89 (called on a non-NULL tree). *)
Fixpoint tree_min (n : tree) : option A :=
  match n with
  | Leaf => None
  | Node Leaf x _ => Some x
  | Node l _ _ => tree_min l
  end.

(** buzzset_tree_remove, buzzset.c 95-145: new tree, *removed, and the log of dstryf. *)
Fixpoint tree_remove (n : tree) (x : A) : tree * bool * list A :=
  match n with
  | Leaf => (Leaf, false, [])
  | Node l y r =>
      let res := cmpf x y in
      if res <? 0 then let '(l', b, g) := tree_remove l x in (Node l' y r, b, g)
      else if res >? 0 then let '(r', b, g) := tree_remove r x in (Node l y r', b, g)
      else match l, r with
           | Leaf, Leaf => (Leaf, true, [y])
           | _, Leaf => (l, true, [y])
           | Leaf, _ => (r, true, [y])
           | _, _ => match tree_min r with
                     | Some m => let '(r', b, g) := tree_remove r m in (Node l m r', b, y :: g)
                     | None => (n, true, [y])  (* not reached: r is not empty *)
                     end
           end
  end.

(** buzzset_tree_find, buzzset.c 151-166. *)
Fixpoint tree_find (n : tree) (x : A) : option A :=
  match n with
  | Leaf => None
  | Node l y r =>
      let res := cmpf x y in
      if res <? 0 then tree_find l x else if res >? 0 then tree_find r x else Some y
  end.

(** buzzset_tree_destroy, buzzset.c 30-38: log of dstryf. *)
Fixpoint tree_destroy (n : tree) : list A :=
  match n with
  | Leaf => []
  | Node l x r => tree_destroy l ++ tree_destroy r ++ [x]
  end.

(** buzzset_new 171-181, insert 198-203, remove 208-213, find 218-223, foreach 228-232,
    destroy 186-193. *)
Definition bset_new : bset := mkBset Leaf 0.
Definition bset_insert (s : bset) (x : A) : bset :=
  let '(t, added) := tree_insert (bs_data s) x in
  mkBset t (if added then wrap32 (bs_size s + 1) else bs_size s).
Definition bset_remove (s : bset) (x : A) : bset * list A :=
  let '(t, removed, g) := tree_remove (bs_data s) x in
  (mkBset t (if removed then wrap32 (bs_size s - 1) else bs_size s), g).
Definition bset_find (s : bset) (x : A) : option A := tree_find (bs_data s) x.
Definition bset_foreach (s : bset) : list A := tree_foreach (bs_data s).
Definition bset_destroy (s : bset) : list A := tree_destroy (bs_data s).

(** Operation histories of the API in buzzset.h. *)
Inductive sop := SInsert (x : A) | SRemove (x : A).
Definition bset_step (s : bset) (o : sop) : bset :=
  match o with SInsert x => bset_insert s x | SRemove x => fst (bset_remove s x) end.
Definition bset_run (s : bset) (ops : list sop) : bset := fold_left bset_step ops s.
End BSet.
Arguments tree A : clear implicits.
Arguments bset A : clear implicits.
Arguments sop A : clear implicits.

(** ** Specification: membership after a history *)
Section SetSpec.
Context {A : Type}.
(** [member ops x]: the last operation of the history mentioning x is an insertion. *)
Fixpoint member_from (b : Prop) (ops : list (sop A)) (x : A) : Prop :=
  match ops with
  | [] => b
  | SInsert y :: t => member_from (x = y \/ b) t x
  | SRemove y :: t => member_from (x <> y /\ b) t x
  end.
Definition member (ops : list (sop A)) (x : A) : Prop := member_from False ops x.

Definition total_order (cmp : A -> A -> Z) : Prop :=
  (forall a b, cmp a b = 0 <-> a = b) /\
  (forall a b, cmp a b < 0 <-> cmp b a > 0) /\
  (forall a b c, cmp a b < 0 -> cmp b c < 0 -> cmp a c < 0).
End SetSpec.
