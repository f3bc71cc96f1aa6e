(** Specification: what a garbage collection may do to the VM, and executions with collections.

    Tables keep their addresses; what is found at the address of a table that was removed is arbitrary.  C19
    shows that buzzheap_gc (buzzheap.c 198-233) removes exactly the objects that cannot be reached, so
    every collection is one of those described here. *)
From Verif Require Import Base Float Dict PDict Strman StrmanSpec Obj Instr Vm VmSpec.
Local Open Scope Z_scope. Local Open Scope list_scope.

Section Gc.
Context {X : Type}.
Implicit Types v : vm X.
(** The objects in the parts of the VM that scripts do not see: stigmergies, listeners, outgoing messages. *)
Variable xroots : X -> list obj.

(** The objects the VM refers to: stacks, local and global variables, and those. *)
Definition slot_objs (o : option obj) : list obj := match o with Some x => [x] | None => [] end.
Definition frame_objs (f : lsyms) : list obj := flat_map slot_objs (ls_syms f).
Definition roots v : list obj :=
  concat (v_stacks v) ++ flat_map frame_objs (v_lsymts v) ++ map snd (pentries (v_gsyms v)) ++ xroots (v_ext v).

(** The objects that can be reached from them: through captured variables, keys and values of tables. *)
Definition table_of (h : list table) (a : Z) : option table := if 0 <=? a then nth_error h (Z.to_nat a) else None.
Inductive reach (h : list table) (R : list obj) : obj -> Prop :=
| reach_root o : In o R -> reach h R o
| reach_clos n r act o : reach h R (OClos n r act) -> In o act -> reach h R o
| reach_key a t k x : reach h R (OTab a) -> table_of h a = Some t -> In (k, x) (pentries t) -> reach h R k
| reach_val a t k x : reach h R (OTab a) -> table_of h a = Some t -> In (k, x) (pentries t) -> reach h R x.
Definition reached v : obj -> Prop := reach (v_heap v) (roots v).

(** The string with this id, and whether it is kept whatever happens (those of the bytecode are). *)
Definition string_of (s : strman) (i : Z) : option (str * bool) := i2s_get (id2str s) i.
Definition kept_string (s : strman) (i : Z) : Prop := exists t, string_of s i = Some (t, true).

(** A string manager that a sequence of registrations, look-ups and collections has produced. *)
Definition strings_ok (s : strman) : Prop := exists ops outs, smhist_ok sm_new ops /\ sm_run sm_new ops = Ok (s, outs).

(** [g] is [v] after a collection: the tables and the strings that can be reached are there, unchanged,
    and so is everything that is not a table or a string.  Nothing is said about the others. *)
Record keeps v g : Prop := mkKeeps {
  k_rest : g = set_str (set_heap v (v_heap g)) (v_str g);
  k_size : length (v_heap g) = length (v_heap v);
  k_tabs : forall a, reached v (OTab a) -> table_of (v_heap g) a = table_of (v_heap v) a;
  k_strs : forall i s, reached v (OStr i s) -> string_of (v_str g) i = string_of (v_str v) i;
  k_kept : forall i, kept_string (v_str v) i -> string_of (v_str g) i = string_of (v_str v) i;
  k_sane : strings_ok (v_str v) -> strings_ok (v_str g)
}.
(** The same outcome: defined states only differ by what cannot be reached. *)
Definition agree (x y : res (vm X)) : Prop :=
  match x, y with
  | Ok v, Ok g => keeps v g
  | UB, UB | Abort, Abort | Hang, Hang => True
  | _, _ => False
  end.
(** A C function that only looks at what can be reached. *)
Definition respects (f : vm X -> res (vm X)) : Prop := forall v g, keeps v g -> agree (f v) (f g).

Variable flist : list (vm X -> res (vm X)).
Variable powf : libm.
Variable code : Z -> Z.
Variable size : Z.

(** [n] steps; [gc k] is what the collector does when [k] of them are left; it may do nothing. *)
Fixpoint gc_steps (gc : nat -> vm X -> res (vm X)) (n : nat) v : res (vm X) :=
  match n with
  | O => Ok v
  | S m => v0 <- gc n v ;; v1 <- vm_step flist powf code size v0 ;; gc_steps gc m v1
  end.

(** The local variables have values (the collector looks at them), the string manager is sound and a
    string about to be pushed is one of those that are kept. *)
Definition slots_set v : Prop := forall f, In f (v_lsymts v) -> ~ In None (ls_syms f).
Definition gc_fine v : Prop :=
  slots_set v /\ strings_ok (v_str v) /\ (about_to code v I_PUSHS -> kept_string (v_str v) (wrap16 (instr_arg code v))).
End Gc.
