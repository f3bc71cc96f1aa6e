(** Specification vocabulary for the iteration functions: executions of a callback. *)
From Coq Require Import String.
From Verif Require Import Base Float Dict PDict Strman Obj ObjSpec Instr Vm VmSpec.
Local Open Scope Z_scope.
Local Open Scope list_scope.

(** Tables, strings, globals and extensions are the same. *)
Definition same_world {X} (v w : vm X) : Prop :=
  v_heap w = v_heap v /\ v_str w = v_str v /\ v_gsyms w = v_gsyms v /\ v_ext w = v_ext v.
(** The same except for the contents of the table at [b]. *)
Definition same_world_but {X} (b : Z) (v w : vm X) : Prop :=
  (forall i, i <> Z.to_nat b -> nth_error (v_heap w) i = nth_error (v_heap v) i) /\
  v_str w = v_str v /\ v_gsyms w = v_gsyms v /\ v_ext w = v_ext v.
Definition table_of {X} (v : vm X) (a : Z) : option table := nth_error (v_heap v) (Z.to_nat a).

Section Spec.
Context {X : Type}.
Variable flist : list (vm X -> res (vm X)).
Variable powf : libm.
Variable code : Z -> Z.
Variable size : Z.
(** The Buzz function: its first instruction and what it captured. *)
Variables (ref : Z) (act : list obj).

(** The function is executed with [args], from the tables, strings and globals of [v]; it returns [r]
    and leaves those of [v']. *)
Definition executed (v : vm X) (args : list obj) (r : obj) (v' : vm X) : Prop :=
  exists v1, entered v1 ref (act ++ args) /\ same_world v v1 /\ returned flist powf code size v1 v' r.
(** A sequence of executions; [between] relates the end of one to the beginning of the next. *)
Inductive runs (between : vm X -> vm X -> Prop) : vm X -> list (list obj * obj) -> vm X -> Prop :=
| runs_nil v w : same_world v w -> runs between v [] w
| runs_cons v args r w w' l z :
    executed v args r w -> between w w' -> runs between w' l z -> runs between v ((args, r) :: l) z.
(** The function does not change the table at [a]. *)
Definition keeps (a : Z) : Prop :=
  forall v args r v' t, executed v args r v' -> table_of v a = Some t -> table_of v' a = Some t.
End Spec.

(** The calls made: key and value of each entry (and, for reduce, the result of the call before). *)
Definition entry_calls (es : list (obj * obj)) (rs : list obj) : list (list obj * obj) :=
  combine (map (fun e => [fst e; snd e]) es) rs.
Fixpoint fold_calls (es : list (obj * obj)) (acc : obj) (rs : list obj) : list (list obj * obj) :=
  match es, rs with
  | e :: es', r :: rs' => ([fst e; snd e; acc], r) :: fold_calls es' r rs'
  | _, _ => []
  end.
(** A value as contents of a table: nil is nothing. *)
Definition contents (o : obj) : option obj := match o with ONil => None | _ => Some o end.

(** The names of the types. *)
Definition type_name (o : obj) : string :=
  match o with
  | ONil => "nil" | OInt _ => "integer" | OFloat _ => "float" | OStr _ _ => "string"
  | OTab _ => "table" | OClos _ _ _ => "closure" | OUser _ => "userdata"
  end%string.
