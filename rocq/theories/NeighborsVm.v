(** Model of the table neighbors and its methods on the virtual machine (src/buzz/buzzneighbors.c):
    make_table, buzzneighbors_reset, add, get, foreach, map, reduce, filter, count.  Broadcasts and
    listeners are in Listen.v, kin and nonkin in Neighbors.v.

    Simplification.  buzzvm_function_register (buzzvm.c 1078-1087) looks for the function among the registered
    ones, comparing their addresses with the first bytes of its code, does not find it and appends it again.  In the model the
    list of functions is fixed (Vm.v) and [fid] gives the position of each method. *)
From Coq Require Import String.
From Verif Require Import Base Float Dict PDict Strman Obj Instr Vm Text Strlib TableLib.
Local Open Scope Z_scope.
Local Open Scope list_scope.

Section Neighbors.
Context {X : Type}.
Notation vm := (vm X).
Implicit Types v : vm.
Variable flist : list (vm -> res vm).
Variable powf : libm.
Variable code : Z -> Z.
Variable size : Z.
Variable fuel : nat.
Variable fid : string -> Z.
Notation callback := (callback flist powf code size fuel).

(** buzzvm_pushs(vm, buzzvm_string_register(vm, NAME, 1)). *)
Definition push_name v (name : string) : res vm :=
  '(sm, id) <- sm_register sm_fuel (v_str v) (bs name) true ;; Ok (vm_pushs (set_str v sm) id).

(** function_register, buzzneighbors.c 23-27. *)
Definition function_register (t : obj) v (name : string) : res vm :=
  v1 <- push_name (push v t) name ;; vm_tput (vm_pushc v1 (fid name) false).
Fixpoint function_registers (t : obj) (l : list string) v : res vm :=
  match l with [] => Ok v | n :: r => v1 <- function_register t v n ;; function_registers t r v1 end.
(** The names of buzzneighbors.c 33-40. *)
Definition methods : list string :=
  ["get"; "filter"; "kin"; "nonkin"; "foreach"; "map"; "reduce"; "count"]%string.
(** make_table, buzzneighbors.c 29-42. *)
Definition make_table v : res (vm * obj) :=
  let '(v1, t) := new_table v in
  v2 <- function_registers t methods v1 ;; Ok (v2, t).

(** buzzneighbors_new, buzzneighbors.c 47-62. *)
Definition neighbors_new v : res vm :=
  if negb (is_ready (v_state v)) then Ok v else
  '(v1, t) <- make_table v ;;
  if negb (is_ready (v_state v1)) then Ok v1 else
  v2 <- function_registers t ["broadcast"; "listen"; "ignore"]%string v1 ;;
  v3 <- push_name v2 "neighbors" ;;
  vm_gstore (push v3 t).

(** buzzneighbors_reset, buzzneighbors.c 67-78. *)
Definition neighbors_reset v : res vm :=
  if negb (is_ready (v_state v)) then Ok v else
  v1 <- push_name v "neighbors" ;;
  v2 <- vm_gload v1 ;;
  type_assert v2 1 T_TABLE (
    v3 <- push_name v2 "poses" ;;
    vm_tput (vm_pusht v3)).

(** One field of an entry, buzzneighbors.c 113-116, 118-121, 123-126. *)
Definition put_float (t : obj) v (e : string * f32) : res vm :=
  v1 <- push_name (push v t) (fst e) ;; vm_tput (push v1 (OFloat (snd e))).
(** buzzneighbors_add, buzzneighbors.c 83-131. *)
Definition neighbors_add (robot : Z) (distance azimuth elevation : f32) v : res vm :=
  if negb (is_ready (v_state v)) then Ok v else
  v1 <- push_name v "neighbors" ;;
  v2 <- vm_gload v1 ;;
  type_assert v2 1 T_TABLE (
    nbr <- stack_at v2 1 ;;
    v3 <- push_name v2 "poses" ;;
    v4 <- vm_tget v3 ;;
    o <- stack_at v4 1 ;;
    v5 <- match o with
          | ONil =>
              v5 <- push_name (push (vm_pop v4) nbr) "poses" ;;
              let v6 := vm_pusht v5 in
              data <- stack_at v6 1 ;;
              v7 <- vm_tput v6 ;; Ok (push v7 data)
          | _ => Ok v4
          end ;;
    let '(v6, entry) := new_table (push v5 (OInt robot)) in
    v7 <- put_float entry v6 ("distance"%string, distance) ;;
    v8 <- put_float entry v7 ("azimuth"%string, azimuth) ;;
    v9 <- put_float entry v8 ("elevation"%string, elevation) ;;
    vm_tput (push v9 entry)).

(** The field "poses" of the self table is pushed: buzzneighbors.c 323-326, 367-370, ... *)
Definition load_poses v : res vm :=
  v1 <- vm_lload v 0 ;; v2 <- push_name v1 "poses" ;; vm_tget v2.

(** buzzneighbors_get, buzzneighbors.c 319-338. *)
Definition nb_get v : res vm :=
  lnum_assert v 1 (
    v1 <- load_poses v ;;
    o <- stack_at v1 1 ;;
    match o with
    | ONil => vm_ret1 (push v1 ONil)
    | _ => v2 <- vm_lload v1 1 ;; v3 <- vm_tget v2 ;; vm_ret1 v3
    end).

(** The closure given as argument 1. *)
Definition closure_arg v (k : vm -> obj -> res vm) : res vm :=
  v1 <- vm_lload v 1 ;; type_assert v1 1 T_CLOSURE (c <- stack_at v1 1 ;; k v1 c).

(** neighbor_for_each, buzzneighbors.c 348-358: the result of the function stays on the stack. *)
Definition nb_foreach_entry (c : obj) v (k x : obj) : res vm :=
  if negb (is_ready (v_state v)) then Ok v else callback v c [k; x].
(** buzzneighbors_foreach, buzzneighbors.c 360-383. *)
Definition nb_foreach v : res vm :=
  lnum_assert v 1 (
    v1 <- load_poses v ;;
    o <- stack_at v1 1 ;;
    match o with
    | OTab d => closure_arg v1 (fun v2 c => v3 <- walk fuel d (nb_foreach_entry c) 0 0 v2 ;; vm_ret0 v3)
    | _ => vm_ret0 v1
    end).

(** neighbor_map_each, buzzneighbors.c 394-420: the result is stored even when it is nil. *)
Definition nb_map_entry (b : Z) (c : obj) v (k x : obj) : res vm :=
  if negb (is_ready (v_state v)) then Ok v else
  let ss := zlen (stack v) in
  v1 <- callback v c [k; x] ;;
  if negb (is_ready (v_state v1)) then Ok v1
  else if zlen (stack v1) <=? ss then Ok (err v1 E_STACK)
  else
    r <- stack_at v1 1 ;;
    t <- tab_at v1 b ;; t' <- tab_set t k r ;; Ok (vm_pop (tab_put v1 b t')).
(** neighbor_filter_each, buzzneighbors.c 538-568. *)
Definition nb_filter_entry (a b : Z) (c : obj) v (k x : obj) : res vm := filter_entry flist powf code size fuel a b c v k x.

(** buzzneighbors_map, buzzneighbors.c 422-460, and buzzneighbors_filter, 570-608. *)
Definition nb_new_table (entry : Z -> Z -> obj -> vm -> obj -> obj -> res vm) v : res vm :=
  lnum_assert v 1 (
    v1 <- vm_lload v 0 ;;
    type_assert v1 1 T_TABLE (
      v2 <- push_name v1 "poses" ;;
      v3 <- vm_tget v2 ;;
      data <- stack_at v3 1 ;;
      '(v4, t) <- make_table v3 ;;
      if negb (is_ready (v_state v4)) then Ok v4 else
      let v5 := push v4 t in
      match data with
      | OTab d =>
          closure_arg v5 (fun v6 c =>
            let b := zlen (v_heap v6) in
            let '(v7, m) := new_table v6 in
            v8 <- push_name (push v7 t) "poses" ;;
            v9 <- vm_tput (push v8 m) ;;
            v10 <- walk fuel d (entry d b c) 0 0 v9 ;;
            vm_ret1 (push v10 t))
      | _ => vm_ret1 (push v5 t)
      end)).
Definition nb_map v : res vm := nb_new_table (fun _ b c => nb_map_entry b c) v.
Definition nb_filter v : res vm := nb_new_table nb_filter_entry v.

(** neighbor_reduce, buzzneighbors.c 470-495, and buzzneighbors_reduce, 497-527. *)
Definition nb_reduce v : res vm :=
  lnum_assert v 2 (
    v1 <- load_poses v ;;
    o <- stack_at v1 1 ;;
    v2 <- vm_lload v1 2 ;;
    accum <- stack_at v2 1 ;;
    match o with
    | OTab d =>
        closure_arg v2 (fun v3 c =>
          v4 <- walk fuel d (reduce_entry flist powf code size fuel c) 0 0 (push v3 accum) ;; vm_ret1 v4)
    | _ => vm_ret1 v2
    end).

(** buzzneighbors_count, buzzneighbors.c 613-626: the value of an object that is neither nil nor a table is another
    member of the union. *)
Definition nb_count v : res vm :=
  lnum_assert v 0 (
    v1 <- load_poses v ;;
    o <- stack_at v1 1 ;;
    match o with
    | ONil => vm_ret1 (push v1 (OInt 0))
    | OTab d => t <- tab_at v1 d ;; vm_ret1 (push v1 (OInt (sign32 (psize t))))
    | _ => UB
    end).
End Neighbors.
