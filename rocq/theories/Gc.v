(** Model of the collection at the start of buzzvm_step: buzzheap_gc (src/buzz/buzzheap.c 198-233) on the
    state of Vm.v.

    Simplifications.  Objects that are not tables have no address in Vm.v, so only tables are swept.
    Heap.v models the marking of buzzheap.c 126-149 pointer by pointer; here the marks are computed by rounds, which
    gives the same set.  Whether a collection is due (200) is an argument: it depends on the number of all
    objects.  [junk] is what is found where a deleted table was. *)
From Verif Require Import Base Float Dict PDict Strman Obj Instr Vm GcSpec.
Local Open Scope Z_scope. Local Open Scope list_scope.

(** The tables and the strings in an object, through captured variables: buzzheap_obj_mark and
    buzzheap_darrayobj_mark, buzzheap.c 126-159. *)
Fixpoint tabs_of (o : obj) : list Z :=
  match o with OTab a => [a] | OClos _ _ act => flat_map tabs_of act | _ => [] end.
Fixpoint strs_of (o : obj) : list Z :=
  match o with OStr i _ => [i] | OClos _ _ act => flat_map strs_of act | _ => [] end.
(** The keys and the values of the marked tables: buzzheap_dictobj_mark, buzzheap.c 152-155. *)
Definition entry_objs (e : obj * obj) : list obj := [fst e; snd e].
Definition inside (h : list table) (m : list bool) : list obj :=
  flat_map (fun tb : table * bool => if snd tb then flat_map entry_objs (pentries (fst tb)) else []) (combine h m).
(** The marks after one more round. *)
Fixpoint mark_at (l : list Z) (i : Z) (m : list bool) : list bool :=
  match m with [] => [] | b :: t => (b || existsb (Z.eqb i) l) :: mark_at l (i + 1) t end.
Definition mark_round (h : list table) (m : list bool) : list bool := mark_at (flat_map tabs_of (inside h m)) 0 m.
Fixpoint mark_rounds (n : nat) (h : list table) (m : list bool) : list bool :=
  match n with O => m | S k => mark_rounds k h (mark_round h m) end.
(** All the marks: no table is further away than there are tables. *)
Definition marks (h : list table) (R : list obj) : list bool :=
  mark_rounds (length h) h (mark_at (flat_map tabs_of R) 0 (repeat false (length h))).
(** The loop that deletes, buzzheap.c 219-228. *)
Definition sweep (junk : table -> table) (h : list table) (m : list bool) : list table :=
  map (fun tb : table * bool => if snd tb then fst tb else junk (fst tb)) (combine h m).

Section Gc.
Context {X : Type}.
Variable xroots : X -> list obj.
(** buzzheap_gc, buzzheap.c 198-233. *)
Definition unset (f : lsyms) : bool := existsb (fun o : option obj => match o with None => true | Some _ => false end) (ls_syms f).
Definition vm_gc (due : bool) (junk : table -> table) (v : vm X) : res (vm X) :=
  if negb due then Ok v
  else if existsb unset (v_lsymts v) then UB     (* a local variable without value is dereferenced *)
  else
    let R := roots xroots v in
    let m := marks (v_heap v) R in
    s <- sm_gc (v_str v) (map wrap16 (flat_map strs_of (R ++ inside (v_heap v) m))) ;;
    Ok (set_str (set_heap v (sweep junk (v_heap v) m)) s).
End Gc.

(** ** Executions with the collector *)
Section Run.
Context {X : Type}.
Variable xroots : X -> list obj.
Variable flist : list (vm X -> res (vm X)).
Variable powf : libm.
Variable code : Z -> Z.
Variable size : Z.
(** Whether a collection is due before the step with this number, and what freed memory holds. *)
Variable due : nat -> bool.
Variable junk : table -> table.
(** buzzvm_step, buzzvm.c 716-: the state is looked at (719), the collector is called (721), the
    instruction is executed. *)
Definition gc_step (i : nat) (v : vm X) : res (vm X) :=
  if is_ready (v_state v) then v0 <- vm_gc xroots (due i) junk v ;; vm_step flist powf code size v0 else Ok v.
(** buzzvm_execute_script, buzzvm.c 998-1001. *)
Fixpoint gc_execute (fuel : nat) (i : nat) (v : vm X) : res (vm X) :=
  match fuel with
  | O => Hang
  | S f => v1 <- gc_step i v ;; if is_ready (v_state v1) then gc_execute f (S i) v1 else Ok v1
  end.
End Run.
