(** Model of the registration of C functions (src/buzz/buzzvm.c 1072-1087, buzzdarray.c 216-225). *)
From Verif Require Import Base.
Local Open Scope Z_scope.
Local Open Scope list_scope.

Section Register.
(** The machine word found in memory at an address: at the address of a function, the first bytes of its code. *)
Variable word : Z -> Z.

(** buzzdarray_find, buzzdarray.c 216-225, with buzzvm_function_cmp, buzzvm.c 1072-1076: [data] is the pointer that is given
    to the comparison, which reads a word through it; the element itself is read through the pointer to the element. *)
Fixpoint flist_find (data : Z) (l : list Z) (i : Z) : Z :=
  match l with
  | [] => i
  | e :: r => if word data =? e then i else flist_find data r (i + 1)
  end.
(** buzzvm_function_register, buzzvm.c 1078-1087: line 1081 gives the function pointer itself, not its address, to
    buzzdarray_find.  [l] is vm->flist, as addresses of functions.  The size of the list does not wrap (uint32_t). *)
Definition fun_register (l : list Z) (funp : Z) : list Z * Z :=
  let fpos := flist_find funp l 0 in
  if fpos =? zlen l then (l ++ [funp], fpos) else (l, fpos).
(** Several registrations, with the ids they return. *)
Fixpoint fun_registers (l : list Z) (fs : list Z) : list Z * list Z :=
  match fs with
  | [] => (l, [])
  | f :: r => let '(l1, i) := fun_register l f in let '(l2, is) := fun_registers l1 r in (l2, i :: is)
  end.
(** The function a C closure with the id [i] calls, buzzvm.c 1136-1138; without one the call is an error (1104-1108). *)
Definition fun_called (l : list Z) (i : Z) : option Z := if (0 <=? i) && (i <? zlen l) then nth_error l (Z.to_nat i) else None.
End Register.
