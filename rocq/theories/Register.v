(** Model of the set-up of the standard library when bytecode is loaded: the buzz*_register functions that
    buzzvm_set_bcode calls (src/buzz/buzzvm.c 685-704).

    [fid] gives the number of each C function among the registered ones, by its name in C: buzzvm_function_register
    (FunReg.v) returns it. *)
From Coq Require Import String.
From Verif Require Import Base Float Dict PDict Strman Obj Instr Vm Text Asm Load NeighborsVm.
Local Open Scope Z_scope.
Local Open Scope list_scope.

Section Register.
Context {X : Type}.
Notation vm := (vm X).
Implicit Types v : vm.
Variable fid : string -> Z.
(** A C closure, buzzvm_pushcc, buzzvm.h 852. *)
Definition cclosure (name : string) : obj := OClos false (sign32 (fid name)) [ONil].

(** function_register_base and function_register_istype, buzztype.c 657-665. *)
Definition global_register v (e : string * string) : res vm :=
  v1 <- push_name v (fst e) ;; vm_gstore (push v1 (cclosure (snd e))).
Fixpoint global_registers (l : list (string * string)) v : res vm :=
  match l with [] => Ok v | e :: r => v1 <- global_register v e ;; global_registers r v1 end.
(** buzzobj_register, buzztype.c 667-685. *)
Definition obj_names : list (string * string) :=
  [("type", "buzzobj_type"); ("int", "buzzobj_int"); ("float", "buzzobj_float"); ("clone", "buzzobj_clone"); ("size", "buzzobj_size");
   ("foreach", "buzzobj_foreach"); ("map", "buzzobj_map"); ("reduce", "buzzobj_reduce"); ("filter", "buzzobj_filter");
   ("isnil", "buzzobj_closure_isnil"); ("isint", "buzzobj_closure_isint"); ("isfloat", "buzzobj_closure_isfloat");
   ("isstring", "buzzobj_closure_isstring"); ("istable", "buzzobj_closure_istable"); ("isclosure", "buzzobj_closure_isclosure");
   ("isuserdata", "buzzobj_closure_isuserdata")]%string.
Definition obj_register v : res vm := global_registers obj_names v.

(** function_register of buzzmath.c 76-80, buzzswarm.c 9-13, buzzvstig.c 10-14; constant_register, buzzmath.c 88-92. *)
Definition dup_register v (e : string * obj) : res vm :=
  v1 <- push_name (vm_dup v) (fst e) ;; vm_tput (push v1 (snd e)).
Fixpoint dup_registers (l : list (string * obj)) v : res vm :=
  match l with [] => Ok v | e :: r => v1 <- dup_register v e ;; dup_registers r v1 end.
Definition methods_of (prefix : string) (l : list string) : list (string * obj) := map (fun n => (n, cclosure (prefix ++ n)%string)) l.

(** buzzvstig_register, buzzvstig.c 31-43. *)
Definition vstig_register v : res vm :=
  v1 <- push_name v "stigmergy" ;;
  v2 <- dup_registers (methods_of "buzzvstig_" ["create"]%string) (vm_pusht v1) ;;
  vm_gstore v2.
(** buzzswarm_register, buzzswarm.c 275-288. *)
Definition swarm_names : list string := ["create"; "union"; "intersection"; "difference"; "id"]%string.
Definition swarm_register v : res vm :=
  v1 <- push_name v "swarm" ;;
  v2 <- dup_registers (methods_of "buzzswarm_" swarm_names) (vm_pusht v1) ;;
  vm_gstore v2.
(** buzzmath_register, buzzmath.c 94-135.  The constant is the single precision number nearest to pi.  The seeding of the random
    number generator (lines 133-138) is not here: see Mathlib.v. *)
Definition math_names : list string :=
  ["abs"; "floor"; "ceil"; "round"; "log"; "log2"; "log10"; "exp"; "sqrt"; "sin"; "cos"; "tan"; "asin"; "acos"; "atan"; "min"; "max"]%string.
Definition rng_names : list string := ["setseed"; "uniform"; "gaussian"; "exponential"]%string.
Definition pi : obj := OFloat (f_of_bits 1078530011).
Definition math_register v : res vm :=
  v1 <- push_name v "math" ;;
  v2 <- dup_registers (methods_of "buzzmath_" math_names) (vm_pusht v1) ;;
  v3 <- dup_register v2 ("pi"%string, pi) ;;
  v4 <- push_name (vm_dup v3) "rng" ;;
  v5 <- dup_registers (methods_of "buzzmath_rng_" rng_names) (vm_pusht v4) ;;
  v6 <- vm_tput v5 ;;
  vm_gstore v6.

(** function_register of buzzio.c 9-13 and buzzstring.c 9-13. *)
Definition table_register (t : obj) v (e : string * obj) : res vm :=
  v1 <- push_name (push v t) (fst e) ;; vm_tput (push v1 (snd e)).
Fixpoint table_registers (t : obj) (l : list (string * obj)) v : res vm :=
  match l with [] => Ok v | e :: r => v1 <- table_register t v e ;; table_registers t r v1 end.
(** buzzio_update_error, buzzio.c 26-41, when errno is 0. *)
Definition io_no_error v : res vm :=
  v1 <- push_name v "io" ;;
  v2 <- vm_gload v1 ;;
  t <- stack_at v2 1 ;;
  v3 <- push_name (push v2 t) "errno" ;;
  v4 <- vm_tput (push v3 (OInt 0)) ;;
  v5 <- push_name v4 "error_message" ;;
  '(sm, id) <- sm_register sm_fuel (v_str v5) (bs "No error") false ;;
  vm_tput (vm_pushs (set_str v5 sm) id).
(** buzzio_register, buzzio.c 46-64. *)
Definition io_names : list string := ["fopen"; "fclose"; "fsize"; "fforeach"; "fwrite"]%string.
Definition io_register v : res vm :=
  let '(v1, t) := new_table v in
  v2 <- table_registers t (methods_of "buzzio_" io_names) v1 ;;
  v3 <- push_name v2 "io" ;;
  v4 <- vm_gstore (push v3 t) ;;
  io_no_error v4.
(** buzzstring_register, buzzstring.c 18-34. *)
Definition string_names : list string := ["length"; "sub"; "concat"; "tostring"; "toint"; "tofloat"]%string.
Definition string_register v : res vm :=
  let '(v1, t) := new_table v in
  v2 <- table_registers t (methods_of "buzzstring_" string_names) v1 ;;
  v3 <- push_name v2 "string" ;;
  vm_gstore (push v3 t).

(** buzzvm.c 691-702. *)
Definition registers v : res vm :=
  v1 <- obj_register v ;; v2 <- vstig_register v1 ;; v3 <- swarm_register v2 ;; v4 <- math_register v3 ;; v5 <- io_register v4 ;; string_register v5.
End Register.

(** buzzvm_set_bcode with the whole standard library. *)
Definition load_all {X} (fid : string -> Z) (flist : list (vm X -> res (vm X))) powf (buf : list Z) (robot : Z) (fuel : nat) (v : vm X) : res (vm X * vstat) :=
  set_bcode flist powf buf (neighbors_new (fun n => fid ("buzzneighbors_" ++ n)%string)) (registers fid) robot fuel v.
