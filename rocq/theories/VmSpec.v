(** Specification vocabulary for the virtual machine. *)
From Verif Require Import Base Float Dict PDict Strman Obj ObjSpec Instr Vm.

(** The VM is about to execute an instruction. *)
Definition about_to {X} (code : Z -> Z) (v : vm X) (o : opcode) : Prop :=
  v_state v = S_READY /\ code (v_pc v) = opnum o.

(** The state after an instruction of [len] bytes that only replaces the operand stack. *)
Definition next {X} (v : vm X) (len : Z) (s : list obj) : vm X :=
  mkVm (v_pc v + len) (v_pc v) (s :: tl (v_stacks v)) (v_lsymts v) (v_gsyms v) (v_heap v) (v_str v)
       (v_swstk v) (v_state v) (v_error v) (v_ext v).
(** The same, continuing at another address. *)
Definition goto {X} (v : vm X) (p : Z) (s : list obj) : vm X :=
  mkVm p (v_pc v) (s :: tl (v_stacks v)) (v_lsymts v) (v_gsyms v) (v_heap v) (v_str v)
       (v_swstk v) (v_state v) (v_error v) (v_ext v).

(** Length of an instruction. *)
Definition instr_len (o : opcode) : Z := if has_arg o then 5 else 1.

(** The instruction at the program counter is followed by at least one more byte of bytecode (the
    last byte of a compiled script is the end of a jump or return, and execution past it is a
    PC error). *)
Definition can_run {X} (code : Z -> Z) (size : Z) (v : vm X) (o : opcode) : Prop :=
  about_to code v o /\ 0 <= v_pc v /\ v_pc v + instr_len o < size.
(** The argument of the instruction at the program counter, least significant byte first. *)
Definition instr_arg {X} (code : Z -> Z) (v : vm X) : Z :=
  code (v_pc v + 1) + 256 * code (v_pc v + 2) + 65536 * code (v_pc v + 3) + 16777216 * code (v_pc v + 4).

(** Truth in Buzz: everything but nil and the integer 0. *)
Definition holds (o : obj) : Prop := o <> ONil /\ o <> OInt 0.

(** ** Integers: the mathematical result of [a o b]; [None]: undefined *)
Definition bool_int (b : bool) : Z := if b then 1 else 0.
Definition int_result (o : opcode) (a b : Z) : option Z :=
  match o with
  | I_ADD => Some (a + b)
  | I_SUB => Some (a - b)
  | I_MUL => Some (a * b)
  | I_DIV => if b =? 0 then None else Some (Z.quot a b)
  | I_MOD => if b =? 0 then None else Some (a mod b)
  | I_BAND => Some (Z.land a b)
  | I_BOR => Some (Z.lor a b)
  | I_LSHIFT => if (0 <=? b) && (b <? 32) && (0 <=? a) then Some (a * 2 ^ b) else None
  | I_RSHIFT => if (0 <=? b) && (b <? 32) then Some (a / 2 ^ b) else None
  | I_EQ => Some (bool_int (a =? b))
  | I_NEQ => Some (bool_int (negb (a =? b)))
  | I_GT => Some (bool_int (b <? a))
  | I_GTE => Some (bool_int (b <=? a))
  | I_LT => Some (bool_int (a <? b))
  | I_LTE => Some (bool_int (a <=? b))
  | _ => None
  end.
Definition int_binary : list opcode :=
  [I_ADD; I_SUB; I_MUL; I_DIV; I_MOD; I_BAND; I_BOR; I_LSHIFT; I_RSHIFT; I_EQ; I_NEQ; I_GT; I_GTE; I_LT; I_LTE].

(** ** What an instruction requires of its operands, and the error when it does not find it *)

Definition number (o : obj) : bool := match o with OInt _ | OFloat _ => true | _ => false end.
Definition an_int (o : obj) : bool := match o with OInt _ => true | _ => false end.
Definition a_string (o : obj) : bool := match o with OStr _ _ => true | _ => false end.
Definition a_table (o : obj) : bool := match o with OTab _ => true | _ => false end.
Definition a_key (o : obj) : bool := number o || a_string o.

(** [pats]: the kinds of the topmost operands, top first. *)
Fixpoint kinds_ok (pats : list (obj -> bool)) (s : list obj) : bool :=
  match pats, s with
  | p :: ps, o :: t => p o && kinds_ok ps t
  | [], _ => true
  | _, [] => false
  end.
Definition require (pats : list (obj -> bool)) (s : list obj) : option verr :=
  if zlen s <? zlen pats then Some E_STACK else if kinds_ok pats s then None else Some E_TYPE.
Definition any (o : obj) : bool := true.

(** Calls: the number of arguments is on top, then the arguments, the closure, and self.
    [nfun]: how many C functions are registered. *)
Definition require_call (nfun : Z) (s : list obj) : option verr :=
  match s with
  | [] => Some E_STACK
  | OInt n :: t =>
      if zlen t <? n + 1 then Some E_STACK
      else match nth_error t (Z.to_nat n) with
           | Some (OClos native ref _) => if negb native && (nfun <=? ref) then Some E_FLIST else None
           | _ => Some E_TYPE
           end
  | _ => Some E_TYPE
  end.

(** [arg]: the argument of the instruction; [strs]: the known strings; [nloc]: the number of
    local symbols (self included). *)
Definition operand_error (nfun : Z) (strs : Z -> option str) (nloc : Z) (o : opcode) (arg : Z) (s : list obj)
  : option verr :=
  match o with
  | I_DUP | I_POP | I_LNOT | I_JUMPZ | I_JUMPNZ | I_LSTORE | I_RET1 => require [any] s
  | I_ADD | I_SUB | I_MUL | I_DIV | I_MOD | I_POW => require [number; number] s
  | I_UNM => require [number] s
  | I_LAND | I_LOR | I_EQ | I_NEQ | I_GT | I_GTE | I_LT | I_LTE => require [any; any] s
  | I_BAND | I_BOR | I_LSHIFT | I_RSHIFT => require [an_int; an_int] s
  | I_BNOT => require [an_int] s
  | I_GLOAD => require [a_string] s
  | I_GSTORE => require [any; a_string] s
  | I_TPUT => require [any; a_key; a_table] s
  | I_TGET => require [a_key; a_table] s
  | I_CALLC | I_CALLS => require_call nfun s
  | I_PUSHS => match strs (arg mod 65536) with Some _ => None | None => Some E_STRING end
  | I_LLOAD | I_LREMOVE => if nloc <=? arg then Some E_LNUM else None
  | _ => None
  end.

(** Nothing was pushed: the new stack is what is left of the old one. *)
Definition nothing_pushed {X} (v v' : vm X) : Prop := exists p, stack v = p ++ stack v'.

(** ** Executions *)

(** What a registered C function must do: end its frame as ret0/ret1 do, leaving the frames of
    its callers alone. *)
Definition c_function_ok {X} (f : vm X -> res (vm X)) : Prop :=
  forall v v' ra s rest ls L,
    v_stacks v = [] :: (OInt ra :: s) :: rest -> v_lsymts v = ls :: L ->
    f v = Ok v' -> v_state v' = S_READY ->
    exists r, v_stacks v' = (r :: s) :: rest /\ v_lsymts v' = L /\ v_pc v' = ra.

(** ** Tables: built by writes and removals with keys of a class *)
Inductive tab_op := TabSet (k x : obj) | TabDel (k : obj).
Definition tab_op_key (o : tab_op) : obj := match o with TabSet k _ => k | TabDel k => k end.
Fixpoint tab_history (t : table) (ops : list tab_op) : res table :=
  match ops with
  | [] => Ok t
  | TabSet k x :: r => t' <- tab_set t k x ;; tab_history t' r
  | TabDel k :: r => t' <- tab_remove t k ;; tab_history t' r
  end.
Definition built (P : obj -> bool) (t : table) : Prop :=
  exists ops, Forall (fun o => P (tab_op_key o) = true) ops /\ tab_history tab_new ops = Ok t.

(** A function has been entered: empty operand stack, the given local symbols, first
    instruction at [ref]. *)
Definition entered {X} (v : vm X) (ref : Z) (locals : list obj) : Prop :=
  v_pc v = ref /\ stack v = [] /\ exists ls L, v_lsymts v = ls :: L /\ ls_syms ls = map Some locals.
(** How many calls are underway. *)
Definition call_depth {X} (v : vm X) : nat := length (v_stacks v).
(** Executing from [v1] ends in [v'] with a return instruction that returns [r]; before it the
    execution never left the call underway in [v1]. *)
Definition returned {X} flist powf code size (v1 v' : vm X) (r : obj) : Prop :=
  exists n vl, vm_steps flist powf code size n v1 = Ok vl /\ vm_step flist powf code size vl = Ok v' /\
    ((about_to code vl I_RET0 /\ r = ONil) \/ (about_to code vl I_RET1 /\ hd_error (stack vl) = Some r)) /\
    (forall m w, (m <= n)%nat -> vm_steps flist powf code size m v1 = Ok w -> (call_depth v1 <= call_depth w)%nat) /\
    S (call_depth v') = call_depth v1.

(** Global symbols as they can be: the results of stores. *)
Definition stored_globals (g : pdict Z obj) : Prop :=
  exists l, g = fold_left (fun g e => gsym_set g (fst e) (snd e)) l (pnew 20).
(** The value of a global variable: nil when it was never stored. *)
Definition global {X} (v : vm X) (sid : Z) : obj :=
  match gsym_get (v_gsyms v) sid with Some o => o | None => ONil end.
(** What a table holds after a value was stored: closures become methods, their self is the
    table. *)
Definition as_stored (a : Z) (x : obj) : obj :=
  match x with OClos n r l => OClos n r (OTab a :: tl l) | _ => x end.
(** How many functions are being executed. *)
Definition fun_depth {X} (v : vm X) : nat := length (v_lsymts v).
