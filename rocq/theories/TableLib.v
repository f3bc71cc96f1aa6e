(** Model of the functions on tables and types of the standard library: type(), int(), float(),
    size(), foreach(), map(), reduce(), filter(), isnil() ... (src/buzz/buzztype.c 222-513 and 634-655).

    [flist] are the registered functions a callback may call. *)
From Coq Require Import String.
From Verif Require Import Base Float Dict PDict Strman Obj Instr Vm Text Strlib.
Local Open Scope Z_scope.
Local Open Scope list_scope.

Section TableLib.
Context {X : Type}.
Notation vm := (vm X).
Implicit Types v : vm.
Variable flist : list (vm -> res vm).
Variable powf : libm.
Variable code : Z -> Z.
Variable size : Z.
Variable fuel : nat.

(** Pushing the closure and its arguments, and calling it: buzztype.c 302-306, 351-356, ... *)
Definition callback v (f : obj) (args : list obj) : res vm :=
  closure_call flist powf code size fuel (fold_left push args (push v f)) (zlen args).

(** buzzdict_foreach, buzzdict.c 164-181, on the table at [a]: [i] and [j] are the counters of the two
    loops.  The table is looked at again in every round.  An empty bucket is a null pointer (buzzdict.c
    147-148): when the bucket became empty during its iteration, the condition of line 174
    dereferences it. *)
Fixpoint walk (rounds : nat) (a : Z) (entry : vm -> obj -> obj -> res vm) (i j : nat) v : res vm :=
  match rounds with
  | O => Hang
  | S n =>
      t <- tab_at v a ;;
      if Nat.ltb i (length t) then
        let b := nth i t [] in
        match nth_error b j with
        | Some (k, x) => v1 <- entry v k x ;; walk n a entry i (S j) v1
        | None =>
            if Nat.eqb (length b) 0 && negb (Nat.eqb j 0) then UB
            else walk n a entry (S i) O v
        end
      else Ok v
  end.

(** The key and data the loop gave to the callback are freed with their entry.  (An entry that the
    callback replaced by an equal one is gone too; the model does not see that.) *)
Definition still_there v (a : Z) (k : obj) (r : res vm) : res vm :=
  t <- tab_at v a ;; x <- tab_get t k ;; match x with Some _ => r | None => UB end.
(** Setting or removing an entry of the table at [b]. *)
Definition put_result v (b : Z) (k r : obj) : res vm :=
  t <- tab_at v b ;;
  t' <- match r with ONil => tab_remove t k | _ => tab_set t k r end ;;
  Ok (tab_put v b t').

(** buzzobj_foreach_entry, buzztype.c 297-310. *)
Definition foreach_entry (c : obj) v (k x : obj) : res vm :=
  if negb (is_ready (v_state v)) then Ok v else
  v1 <- callback v c [k; x] ;;
  if is_ready (v_state v1) then Ok (vm_pop v1) else Ok v1.
(** buzzobj_map_entry, buzztype.c 340-372. *)
Definition map_entry (a b : Z) (c : obj) v (k x : obj) : res vm :=
  if negb (is_ready (v_state v)) then Ok v else
  let ss := zlen (stack v) in
  v1 <- callback v c [k; x] ;;
  if negb (is_ready (v_state v1)) then Ok v1
  else if zlen (stack v1) <=? ss then Ok (err v1 E_STACK)
  else
    r <- stack_at v1 1 ;;
    v2 <- still_there v1 a k (put_result v1 b k r) ;; Ok (vm_pop v2).
(** buzzobj_reduce_entry, buzztype.c 408-432. *)
Definition reduce_entry (c : obj) v (k x : obj) : res vm :=
  if negb (is_ready (v_state v)) then Ok v else
  accum <- stack_at v 1 ;;
  let v0 := vm_pop v in
  let ss := zlen (stack v0) in
  v1 <- callback v0 c [k; x; accum] ;;
  if negb (is_ready (v_state v1)) then Ok v1
  else if zlen (stack v1) <=? ss then Ok (err v1 E_STACK) else Ok v1.
(** buzzobj_filter_entry, buzztype.c 463-493. *)
Definition filter_entry (a b : Z) (c : obj) v (k x : obj) : res vm :=
  if negb (is_ready (v_state v)) then Ok v else
  let ss := zlen (stack v) in
  v1 <- callback v c [k; x] ;;
  if negb (is_ready (v_state v1)) then Ok v1
  else if zlen (stack v1) <=? ss then Ok (err v1 E_STACK)
  else
    r <- stack_at v1 1 ;;
    v2 <- (if truthy r then
             still_there v1 a k (t <- tab_at v1 b ;; t' <- tab_set t k x ;; Ok (tab_put v1 b t'))
           else Ok v1) ;;
    Ok (vm_pop v2).

(** The table and the closure given to these functions. *)
Definition table_and_closure v (k : vm -> Z -> obj -> res vm) : res vm :=
  v1 <- vm_lload v 1 ;;
  type_assert v1 1 T_TABLE (
    t <- stack_at v1 1 ;;
    v2 <- vm_lload v1 2 ;;
    type_assert v2 1 T_CLOSURE (
      c <- stack_at v2 1 ;;
      match t with OTab a => k v2 a c | _ => UB end)).
(** buzzobj_foreach, buzztype.c 312-327.  The functions go on with buzzvm_ret0/ret1 even after an error
    in a callback. *)
Definition obj_foreach v : res vm :=
  lnum_assert v 2 (table_and_closure v (fun v1 a c =>
    v2 <- walk fuel a (foreach_entry c) 0 0 v1 ;; vm_ret0 v2)).
(** buzzobj_map, buzztype.c 374-398. *)
Definition obj_map v : res vm :=
  lnum_assert v 2 (table_and_closure v (fun v1 a c =>
    let b := zlen (v_heap v1) in
    v2 <- walk fuel a (map_entry a b c) 0 0 (vm_pusht v1) ;; vm_ret1 v2)).
(** buzzobj_reduce, buzztype.c 434-452. *)
Definition obj_reduce v : res vm :=
  lnum_assert v 3 (table_and_closure v (fun v1 a c =>
    v2 <- vm_lload v1 3 ;;
    v3 <- walk fuel a (reduce_entry c) 0 0 v2 ;; vm_ret1 v3)).
(** buzzobj_filter, buzztype.c 495-519. *)
Definition obj_filter v : res vm :=
  lnum_assert v 2 (table_and_closure v (fun v1 a c =>
    let b := zlen (v_heap v1) in
    v2 <- walk fuel a (filter_entry a b c) 0 0 (vm_pusht v1) ;; vm_ret1 v2)).

(** ** Types *)

(** buzztype_desc, buzztype.c 11. *)
Definition type_desc (o : obj) : str :=
  match o with
  | ONil => bs "nil" | OInt _ => bs "integer" | OFloat _ => bs "float" | OStr _ _ => bs "string"
  | OTab _ => bs "table" | OClos _ _ _ => bs "closure" | OUser _ => bs "userdata"
  end.
(** buzzobj_type, buzztype.c 222-231. *)
Definition obj_type v : res vm :=
  lnum_assert v 1 (
    v1 <- vm_lload v 1 ;;
    o <- stack_at v1 1 ;;
    v2 <- push_new_string (vm_pop v1) (type_desc o) ;; vm_ret1 v2).
(** buzzobj_int, buzztype.c 236-245: the conversion is undefined when the result does not fit. *)
Definition obj_int v : res vm :=
  lnum_assert v 1 (
    v1 <- vm_lload v 1 ;;
    type_assert v1 1 T_FLOAT (
      o <- stack_at v1 1 ;;
      match o with
      | OFloat f => z <- f_to_int32 f ;; vm_ret1 (push (vm_pop v1) (OInt z))
      | _ => UB
      end)).
(** buzzobj_float, buzztype.c 250-259. *)
Definition obj_float v : res vm :=
  lnum_assert v 1 (
    v1 <- vm_lload v 1 ;;
    type_assert v1 1 T_INT (
      i <- top_int v1 ;; vm_ret1 (push (vm_pop v1) (OFloat (f_of_Z i))))).
(** buzzobj_size, buzztype.c 277-286. *)
Definition obj_size v : res vm :=
  lnum_assert v 1 (
    v1 <- vm_lload v 1 ;;
    type_assert v1 1 T_TABLE (
      o <- stack_at v1 1 ;;
      match o with
      | OTab a => t <- tab_at v1 a ;; vm_ret1 (push (vm_pop v1) (OInt (sign32 (psize t))))
      | _ => UB
      end)).
(** buzzobj_closure_isnil ..., buzztype.c 634-655. *)
Definition closure_is (ty : Z) v : res vm :=
  lnum_assert v 1 (
    v1 <- vm_lload v 1 ;;
    o <- stack_at v1 1 ;;
    vm_ret1 (push v1 (of_bool (otype o =? ty)))).
(** The names under which they are registered, buzztype.c 662-684. *)
Definition type_predicates : list (str * (vm -> res vm)) :=
  [ (bs "isnil", closure_is T_NIL); (bs "isint", closure_is T_INT); (bs "isfloat", closure_is T_FLOAT);
    (bs "isstring", closure_is T_STRING); (bs "istable", closure_is T_TABLE); (bs "isclosure", closure_is T_CLOSURE);
    (bs "isuserdata", closure_is T_USERDATA) ].
End TableLib.
