(** Model of buzzvm_set_bcode, src/buzz/buzzvm.c 653-705: loading bytecode.

    The bytecode is the list of its bytes; reading outside it is undefined.  buzzneighbors_new
    and the buzz*_register functions are arguments. *)
From Coq Require Import String.
From Verif Require Import Base Float Dict PDict Strman Obj Instr Vm Text Asm.

(** The loop over the strings, buzzvm.c 660-668. *)
Fixpoint load_strings (n : nat) (buf : list Z) (i : Z) (sm : strman) : res (strman * Z) :=
  match n with
  | O => Ok (sm, i)
  | S m =>
      if i <? zlen buf then
        s <- rd_cstr (S (length buf)) buf i ;;
        '(sm1, _) <- sm_register sm_fuel sm s true ;;
        load_strings m buf (i + zlen s + 1) sm1
      else Ok (sm, i)
  end.

Section Load.
Context {X : Type}.
Notation vm := (vm X).
Variable flist : list (vm -> res vm).
Variable powf : libm.
Variable buf : list Z.
Definition byte (i : Z) : Z := if 0 <=? i then nth (Z.to_nat i) buf 0 else 0.

(** The function definitions, buzzvm.c 682-684; [false]: the early return of line 683.  The result of
    the step over the nop is not looked at. *)
Fixpoint run_to_nop (fuel : nat) (v : vm) : res (vm * bool) :=
  match fuel with
  | O => Hang
  | S f =>
      b <- rd buf (v_pc v) ;;
      if b =? opnum I_NOP then v1 <- vm_step flist powf byte (zlen buf) v ;; Ok (v1, true)
      else v1 <- vm_step flist powf byte (zlen buf) v ;;
           if is_ready (v_state v1) then run_to_nop f v1 else Ok (v1, false)
  end.

(** buzzvm_string_register and buzzvm_pushs, buzzvm.c 688. *)
Definition push_string (v : vm) (s : str) : res vm :=
  '(sm, id) <- sm_register sm_fuel (v_str v) s true ;; Ok (vm_pushs (set_str v sm) id).

(** Lines 653-684: everything before the standard library is set up. *)
Definition load_code (fuel : nat) (v : vm) : res (vm * bool) :=
  a <- rd buf 0 ;; b <- rd buf 1 ;;
  '(sm, i) <- load_strings (Z.to_nat (a + 256 * b)) buf 2 (v_str v) ;;
  run_to_nop fuel (set_oldpc (set_pc (set_state (set_str v sm) S_READY E_NONE) i) i).

(** buzzneighbors_new (686); the functions registered by lines 691-703; vm->robot. *)
Variable neighbors_new : vm -> res vm.
Variable registers : vm -> res vm.
Variable robot : Z.

(** buzzvm_set_bcode.  The return value is the state in which the loop stopped, or READY. *)
Definition set_bcode (fuel : nat) (v : vm) : res (vm * vstat) :=
  '(v1, ok) <- load_code fuel v ;;
  if (ok : bool) then
    v2 <- neighbors_new v1 ;;
    v3 <- push_string v2 (bs "id") ;;
    v4 <- vm_gstore (push v3 (OInt robot)) ;;
    v5 <- registers v4 ;;
    Ok (v5, S_READY)
  else Ok (v1, v_state v1).
End Load.
