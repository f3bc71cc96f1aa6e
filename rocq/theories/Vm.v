(** Model of the virtual machine, src/buzz/buzzvm.c: state, stack operations and buzzvm_step().

    Objects are the values of Obj.v; tables live in a heap indexed by address.  Allocation
    succeeds; garbage collection (buzzvm.c 721) is not modelled here: Heap.v proves that it
    removes exactly the objects that cannot be reached (C19).  Registered C functions are an
    argument ([flist]).  [X]: the parts of the VM only C functions look at (queues, swarms,
    stigmergies, listeners). *)
From Verif Require Import Base Float Dict PDict Strman Obj Instr.

(** buzzvm_state and buzzvm_error, buzzvm.h 26-49. *)
Inductive vstat := S_NOCODE | S_READY | S_DONE | S_ERROR | S_STOPPED.
Inductive verr := E_NONE | E_INSTR | E_STACK | E_LNUM | E_PC | E_FLIST | E_TYPE | E_STRING | E_SWARM.
Definition is_ready (s : vstat) : bool := match s with S_READY => true | _ => false end.

(** struct buzzvm_lsyms_s, buzzvm.h 125-130; an uninitialised slot is [None]. *)
Record lsyms := mkLs { ls_syms : list (option obj); ls_swarm : bool }.

(** struct buzzvm_s, buzzvm.h 145-200.  Lists of stacks and of local symbol tables have the
    current one first; a stack has its top first. *)
Record vm (X : Type) := mkVm {
  v_pc : Z; v_oldpc : Z;               (* int32_t *)
  v_stacks : list (list obj);
  v_lsymts : list lsyms;
  v_gsyms : pdict Z obj;
  v_heap : list table;                 (* the tables, by address *)
  v_str : strman;
  v_swstk : list Z;                    (* swarmstack, top first *)
  v_state : vstat; v_error : verr;
  v_ext : X
}.
Arguments mkVm {X}. Arguments v_pc {X}. Arguments v_oldpc {X}. Arguments v_stacks {X}. Arguments v_lsymts {X}. Arguments v_gsyms {X}.
Arguments v_heap {X}. Arguments v_str {X}. Arguments v_swstk {X}. Arguments v_state {X}. Arguments v_error {X}. Arguments v_ext {X}.

Section Vm.
Context {X : Type}.
Notation vm := (vm X).
Implicit Types v : vm.

Definition set_pc v p := mkVm p (v_oldpc v) (v_stacks v) (v_lsymts v) (v_gsyms v) (v_heap v) (v_str v) (v_swstk v) (v_state v) (v_error v) (v_ext v).
Definition set_oldpc v p := mkVm (v_pc v) p (v_stacks v) (v_lsymts v) (v_gsyms v) (v_heap v) (v_str v) (v_swstk v) (v_state v) (v_error v) (v_ext v).
Definition set_stacks v s := mkVm (v_pc v) (v_oldpc v) s (v_lsymts v) (v_gsyms v) (v_heap v) (v_str v) (v_swstk v) (v_state v) (v_error v) (v_ext v).
Definition set_lsymts v l := mkVm (v_pc v) (v_oldpc v) (v_stacks v) l (v_gsyms v) (v_heap v) (v_str v) (v_swstk v) (v_state v) (v_error v) (v_ext v).
Definition set_gsyms v g := mkVm (v_pc v) (v_oldpc v) (v_stacks v) (v_lsymts v) g (v_heap v) (v_str v) (v_swstk v) (v_state v) (v_error v) (v_ext v).
Definition set_heap v h := mkVm (v_pc v) (v_oldpc v) (v_stacks v) (v_lsymts v) (v_gsyms v) h (v_str v) (v_swstk v) (v_state v) (v_error v) (v_ext v).
Definition set_str v s := mkVm (v_pc v) (v_oldpc v) (v_stacks v) (v_lsymts v) (v_gsyms v) (v_heap v) s (v_swstk v) (v_state v) (v_error v) (v_ext v).
Definition set_swstk v s := mkVm (v_pc v) (v_oldpc v) (v_stacks v) (v_lsymts v) (v_gsyms v) (v_heap v) (v_str v) s (v_state v) (v_error v) (v_ext v).
Definition set_state v s e := mkVm (v_pc v) (v_oldpc v) (v_stacks v) (v_lsymts v) (v_gsyms v) (v_heap v) (v_str v) (v_swstk v) s e (v_ext v).
Definition set_ext v (x : X) := mkVm (v_pc v) (v_oldpc v) (v_stacks v) (v_lsymts v) (v_gsyms v) (v_heap v) (v_str v) (v_swstk v) (v_state v) (v_error v) x.

(** buzzvm_new, buzzvm.c 512-581 (20 buckets for global symbols). *)
Definition vm_new (x : X) : vm := mkVm 0 0 [[]] [] (pnew 20) [] sm_new [] S_NOCODE E_NONE x.

(** buzzvm_seterror, buzzvm.c 619-648; also the macros that set state and error directly. *)
Definition err v (e : verr) : vm := set_state v S_ERROR e.

(** vm->stack (the last of vm->stacks) and its size. *)
Definition stack v : list obj := hd [] (v_stacks v).
Definition set_stack v s : vm := set_stacks v (s :: tl (v_stacks v)).
(** buzzvm_stack_at, buzzvm.h 801: the element size - idx of the array. *)
Definition stack_at v (i : Z) : res obj :=
  if 1 <=? i then match nth_error (stack v) (Z.to_nat (i - 1)) with Some o => Ok o | None => UB end else UB.
(** buzzvm_stack_assert and buzzvm_type_assert, buzzvm.h 738-769: [k] is the rest of the
    function. *)
Definition stack_assert v (i : Z) (k : res vm) : res vm :=
  if zlen (stack v) - i <? 0 then Ok (err v E_STACK) else k.
Definition type_assert v (i : Z) (t : Z) (k : res vm) : res vm :=
  o <- stack_at v i ;; if otype o =? t then k else Ok (err v E_TYPE).

(** buzzdarray_pop on the stack does nothing when it is empty (buzzdarray.c 140). *)
Definition dpop v : vm := set_stack v (tl (stack v)).
(** buzzvm_push, buzzvm.c 1174-1177. *)
Definition push v (o : obj) : vm := set_stack v (o :: stack v).
(** buzzvm_pop, buzzvm.c 1145-1154. *)
Definition vm_pop v : vm := match stack v with [] => err v E_STACK | _ => dpop v end.
(** buzzvm_dup, buzzvm.c 1159-1169. *)
Definition vm_dup v : vm := match stack v with [] => err v E_STACK | o :: _ => push v o end.

(** buzzvm_pushs, buzzvm.c 1236-1249: the argument is converted to uint16_t. *)
Definition vm_pushs v (arg : Z) : vm :=
  let sid := wrap16 arg in
  match sm_get (v_str v) sid with
  | None => err v E_STRING
  | Some s => push v (OStr sid s)
  end.
(** buzzvm_pushc, buzzvm.c 1201-1209. *)
Definition vm_pushc v (ref : Z) (native : bool) : vm := push v (OClos native (sign32 ref) [ONil]).
(** Reading slots of a local symbol table; an uninitialised one is undefined. *)
Fixpoint all_init (l : list (option obj)) : res (list obj) :=
  match l with
  | [] => Ok []
  | Some o :: t => r <- all_init t ;; Ok (o :: r)
  | None :: _ => UB
  end.
(** buzzvm_pushl, buzzvm.c 1254-1269. *)
Definition vm_pushl v (addr : Z) : res vm :=
  match v_lsymts v with
  | ls :: _ => a <- all_init (ls_syms ls) ;; Ok (push v (OClos true (sign32 addr) a))
  | [] => Ok (push v (OClos true (sign32 addr) [ONil]))
  end.

(** Tables of the heap.  An address without table cannot be in an object of the VM. *)
Definition tab_at v (a : Z) : res table :=
  if 0 <=? a then match nth_error (v_heap v) (Z.to_nat a) with Some t => Ok t | None => UB end else UB.
Definition tab_put v (a : Z) (t : table) : vm := set_heap v (upd (v_heap v) (Z.to_nat a) t).
(** buzzheap_newobj(vm, BUZZTYPE_TABLE). *)
Definition new_table v : vm * obj := (set_heap v (v_heap v ++ [tab_new]), OTab (zlen (v_heap v))).
(** buzzvm_pusht, buzzvm.h 897. *)
Definition vm_pusht v : vm := let '(v1, o) := new_table v in push v1 o.

(** Types accepted as table keys, buzzvm.c 1283-1285. *)
Definition is_key (k : obj) : bool := match k with OInt _ | OFloat _ | OStr _ _ => true | _ => false end.
(** The closure stored by tput: its self becomes the table, buzzvm.c 1296-1305. *)
Definition bind_self (t : obj) (c : obj) : obj :=
  match c with OClos n r a => OClos n r (t :: tl a) | _ => c end.
(** buzzvm_tput, buzzvm.c 1274-1312. *)
Definition vm_tput v : res vm :=
  stack_assert v 3 (type_assert v 3 T_TABLE (
    match stack v with
    | x :: k :: OTab a :: s =>
        let v1 := set_stack v s in
        if is_key k then
          t <- tab_at v1 a ;;
          t' <- (match x with
                 | ONil => tab_remove t k
                 | _ => tab_set t k (bind_self (OTab a) x)
                 end) ;;
          Ok (tab_put v1 a t')
        else Ok (err v1 E_TYPE)
    | _ => UB    (* excluded by the assertions *)
    end)).
(** buzzvm_tget, buzzvm.c 1317-1334.  The error message for a wrong key passes the type number
    to a %s conversion (1327): undefined behaviour. *)
Definition vm_tget v : res vm :=
  stack_assert v 2 (type_assert v 2 T_TABLE (
    match stack v with
    | k :: OTab a :: s =>
        let v1 := set_stack v s in
        if is_key k then
          t <- tab_at v1 a ;;
          r <- tab_get t k ;;
          Ok (push v1 (match r with Some o => o | None => ONil end))
        else UB
    | _ => UB
    end)).

(** buzzvm_gload, buzzvm.c 1339-1348, and buzzvm_gstore, 1353-1362.  The key is the string id
    read as an int32_t: the object comes from calloc, so the two bytes after the id are 0. *)
Definition gsym_get := pget (V:=obj) uintkeyhash intkeycmp.
Definition gsym_set := pset (V:=obj) uintkeyhash intkeycmp.
Definition vm_gload v : res vm :=
  stack_assert v 1 (type_assert v 1 T_STRING (
    match stack v with
    | OStr sid _ :: s =>
        let v1 := set_stack v s in
        Ok (push v1 (match gsym_get (v_gsyms v) sid with Some o => o | None => ONil end))
    | _ => UB
    end)).
Definition vm_gstore v : res vm :=
  stack_assert v 2 (type_assert v 2 T_STRING (
    match stack v with
    | o :: OStr sid _ :: s => Ok (set_gsyms (set_stack v s) (gsym_set (v_gsyms v) sid o))
    | _ => UB
    end)).

(** ** Calls and returns *)

(** The part of buzzvm_ret0/ret1 that ends the frame of local symbols, buzzvm.c 1366-1374 and
    1396-1404: vm->lsyms is NULL outside functions. *)
Definition pop_lsyms v : res vm :=
  match v_lsymts v with
  | [] => UB
  | ls :: t => Ok (set_lsymts (if ls_swarm ls then set_swstk v (tl (v_swstk v)) else v) t)
  end.
(** Dropping the current stack: buzzdarray_last of an empty list is undefined. *)
Definition pop_stacks v : res vm :=
  match v_stacks v with
  | _ :: s :: t => Ok (set_stacks v (s :: t))
  | _ => UB
  end.
(** Return to the address on the stack and push the value, buzzvm.c 1379-1389 and 1413-1423. *)
Definition ret_to v (r : obj) : res vm :=
  stack_assert v 1 (type_assert v 1 T_INT (
    match stack v with
    | OInt a :: s => Ok (push (set_stack (set_pc (set_oldpc v (v_pc v)) a) s) r)
    | _ => UB
    end)).
(** buzzvm_ret0, buzzvm.c 1365-1390. *)
Definition vm_ret0 v : res vm := v1 <- pop_lsyms v ;; v2 <- pop_stacks v1 ;; ret_to v2 ONil.
(** buzzvm_ret1, buzzvm.c 1395-1424. *)
Definition vm_ret1 v : res vm :=
  v1 <- pop_lsyms v ;;
  stack_assert v1 1 (
    match stack v1 with
    | r :: _ => v2 <- pop_stacks v1 ;; ret_to v2 r
    | [] => UB
    end).

(** The registered functions: flist. *)
Variable flist : list (vm -> res vm).

(** buzzvm_call, buzzvm.c 1092-1140.  argn+1 on int32_t overflows for INT_MAX.  For a
    negative number of arguments the closure is looked for above the top of the stack
    (stack_at gives UB).  A negative function id passes the check of line 1106. *)
Definition vm_call v (isswrm : bool) : res vm :=
  stack_assert v 1 (type_assert v 1 T_INT (
    match stack v with
    | OInt argn :: s0 =>
        let v1 := set_stack v s0 in
        if argn + 1 >=? 2 ^ 31 then UB else
        stack_assert v1 (argn + 1) (type_assert v1 (argn + 1) T_CLOSURE (
          c <- stack_at v1 (argn + 1) ;;
          match c with
          | OClos native ref actrec =>
              if negb native && (zlen flist <=? ref) then Ok (err v1 E_FLIST)
              else
                let n := Z.to_nat argn in
                let ls := mkLs (map Some actrec ++ rev (map Some (firstn n s0))) isswrm in
                let v2 := set_lsymts v1 (ls :: v_lsymts v1) in
                (* the arguments, the closure and the self object are popped *)
                let v3 := set_stack v2 (skipn (S (S n)) s0) in
                let v4 := push v3 (OInt (v_pc v3)) in
                let v5 := set_stacks v4 ([] :: v_stacks v4) in
                if native then Ok (set_pc (set_oldpc v5 (v_pc v5)) ref)
                else if ref <? 0 then UB
                else match nth_error flist (Z.to_nat ref) with
                     | Some f => f v5
                     | None => UB
                     end
          | _ => UB
          end))
    | _ => UB
    end)).

(** ** Arithmetic *)

(** int32_t results: overflow is undefined. *)
Definition i32 (z : Z) : res obj := if int32_rangeb z then Ok (OInt z) else UB.
Definition is_num (o : obj) : bool := match o with OInt _ | OFloat _ => true | _ => false end.
Definition numf (o : obj) : f32 := match o with OInt z => f_of_Z z | OFloat f => f | _ => f_zero end.

(** The value of [op2 oper op1] for the arithmetic operators, buzzvm.c 49-72. *)
Definition arith (iop : Z -> Z -> res obj) (fop : f32 -> f32 -> f32) (op2 op1 : obj) : res obj :=
  match op2, op1 with
  | OInt a, OInt b => iop a b
  | _, _ => Ok (OFloat (fop (numf op2) (numf op1)))
  end.
(** buzzvm_binary_op_arith, buzzvm.c 35-73. *)
Definition vm_arith v (iop : Z -> Z -> res obj) (fop : f32 -> f32 -> f32) : res vm :=
  stack_assert v 2 (
    match stack v with
    | op1 :: op2 :: s =>
        if is_num op1 && is_num op2 then r <- arith iop fop op2 op1 ;; Ok (push (set_stack v s) r)
        else Ok (err v E_TYPE)
    | _ => UB
    end).
Definition int_add (a b : Z) : res obj := i32 (a + b).
Definition int_sub (a b : Z) : res obj := i32 (a - b).
Definition int_mul (a b : Z) : res obj := i32 (a * b).
(** C division truncates towards 0. *)
Definition int_div (a b : Z) : res obj := if b =? 0 then UB else i32 (Z.quot a b).
(** The int case of buzzvm_mod, buzzvm.c 1465-1468.  INT_MIN % -1 is undefined. *)
Definition int_mod (a b : Z) : res obj :=
  if (b =? 0) || ((a =? - 2 ^ 31) && (b =? -1)) then UB
  else let r := Z.rem a b in if r <? 0 then i32 (r + b) else Ok (OInt r).

(** fmodf: exact. *)
Definition ffmod (x y : f32) : f32 :=
  match x, y with
  | S754_nan, _ | _, S754_nan | S754_infinity _, _ | _, S754_zero _ => S754_nan
  | S754_zero _, _ | _, S754_infinity _ => x
  | S754_finite sx mx ex, S754_finite _ my ey =>
      let e := Z.min ex ey in
      let r := (Zpos mx * 2 ^ (ex - e)) mod (Zpos my * 2 ^ (ey - e)) in
      binary_normalize fprec femax (if sx then - r else r) e sx
  end.
(** The 32 bits of a float and back (one NaN). *)
Definition f_of_bits (w : Z) : f32 :=
  let s := 2147483648 <=? w in
  let e := w / 8388608 mod 256 in
  let m := w mod 8388608 in
  if e =? 255 then (if m =? 0 then S754_infinity s else S754_nan)
  else if e =? 0 then match m with Zpos p => S754_finite s p (-149) | _ => S754_zero s end
  else match m + 8388608 with Zpos p => S754_finite s p (e - 150) | _ => S754_zero s end.
Definition bits_of_f (f : f32) : Z :=
  match f with
  | S754_zero s => if s then 2147483648 else 0
  | S754_infinity s => (if s then 2147483648 else 0) + 255 * 8388608
  | S754_nan => 255 * 8388608 + 4194304
  | S754_finite s m e =>
      (if s then 2147483648 else 0) +
      (if Zpos m <? 8388608 then Zpos m else (e + 150) * 8388608 + (Zpos m - 8388608))
  end.
(** The float cases of buzzvm_mod, buzzvm.c 1470-1489: when the remainder is negative the code
    adds the wrong member of the union for mixed operands. *)
Definition float_mod (op2 op1 : obj) : obj :=
  let r := ffmod (numf op2) (numf op1) in
  if flt r f_zero then
    OFloat (fadd r (match op2, op1 with
                    | OFloat _, OInt b => f_of_bits (wrap32 b)
                    | OInt _, OFloat b => f_of_Z (sign32 (bits_of_f b))
                    | _, _ => numf op1
                    end))
  else OFloat r.
(** buzzvm_mod, buzzvm.c 1457-1496: the operands are popped before the types are checked. *)
Definition vm_mod v : res vm :=
  stack_assert v 2 (
    match stack v with
    | op1 :: op2 :: s =>
        let v1 := set_stack v s in
        match op2, op1 with
        | OInt a, OInt b => r <- int_mod a b ;; Ok (push v1 r)
        | _, _ => if is_num op1 && is_num op2 then Ok (push v1 (float_mod op2 op1)) else Ok (err v1 E_TYPE)
        end
    | _ => UB
    end).
(** powf of the C library. *)
Variable powf : libm.
(** buzzvm_pow, buzzvm.c 1501-1536. *)
Definition vm_pow v : res vm :=
  stack_assert v 2 (
    match stack v with
    | op1 :: op2 :: s =>
        let v1 := set_stack v s in
        if is_num op1 && is_num op2 then Ok (push v1 (OFloat (powf (numf op2) (numf op1)))) else Ok (err v1 E_TYPE)
    | _ => UB
    end).
(** buzzvm_unm, buzzvm.c 1541-1560. *)
Definition vm_unm v : res vm :=
  stack_assert v 1 (
    match stack v with
    | op :: s =>
        let v1 := set_stack v s in
        match op with
        | OInt z => r <- i32 (- z) ;; Ok (push v1 r)
        | OFloat f => Ok (push v1 (OFloat (fneg f)))
        | _ => Ok (err v1 E_TYPE)
        end
    | _ => UB
    end).
Definition of_bool (b : bool) : obj := OInt (if b then 1 else 0).
(** buzzvm_binary_op_logic, buzzvm.c 84-97. *)
Definition vm_logic v (f : bool -> bool -> bool) : res vm :=
  stack_assert v 2 (
    match stack v with
    | op1 :: op2 :: s => Ok (push (set_stack v s) (of_bool (f (truthy op2) (truthy op1))))
    | _ => UB
    end).
(** buzzvm_lnot, buzzvm.c 1579-1588. *)
Definition vm_lnot v : res vm :=
  stack_assert v 1 (
    match stack v with
    | op :: s => Ok (push (set_stack v s) (of_bool (negb (truthy op))))
    | _ => UB
    end).
(** buzzvm_binary_op_bitwise, buzzvm.c 108-118. *)
Definition vm_bitwise v (f : Z -> Z -> res obj) : res vm :=
  stack_assert v 2 (type_assert v 1 T_INT (type_assert v 2 T_INT (
    match stack v with
    | OInt b :: OInt a :: s => r <- f a b ;; Ok (push (set_stack v s) r)
    | _ => UB
    end))).
Definition int_and (a b : Z) : res obj := Ok (OInt (Z.land a b)).
Definition int_or (a b : Z) : res obj := Ok (OInt (Z.lor a b)).
(** Shifts: undefined for shift amounts outside 0..31 and, to the left, for negative operands
    and results out of range; to the right arithmetic as all usual compilers do. *)
Definition int_shl (a b : Z) : res obj :=
  if (0 <=? b) && (b <? 32) && (0 <=? a) then i32 (Z.shiftl a b) else UB.
Definition int_shr (a b : Z) : res obj :=
  if (0 <=? b) && (b <? 32) then Ok (OInt (Z.shiftr a b)) else UB.
(** buzzvm_bnot, buzzvm.c 1607-1615. *)
Definition vm_bnot v : res vm :=
  stack_assert v 1 (type_assert v 1 T_INT (
    match stack v with
    | OInt a :: s => Ok (push (set_stack v s) (OInt (Z.lnot a)))
    | _ => UB
    end)).
(** buzzvm_binary_op_cmp, buzzvm.c 128-137: the result 2 of buzzobj_cmp (one operand is nil, or
    the result of strcmp) makes every comparison true. *)
Definition vm_cmp v (f : Z -> bool) : res vm :=
  stack_assert v 2 (
    match stack v with
    | op1 :: op2 :: s =>
        c <- obj_cmp_by (c_strcmp powf) op2 op1 ;;
        Ok (push (set_stack v s) (of_bool ((c =? 2) || f c)))
    | _ => UB
    end).

(** ** Local variables *)

(** buzzvm_lload, buzzvm.c 1676-1688. *)
Definition vm_lload v (idx : Z) : res vm :=
  match v_lsymts v with
  | [] => UB
  | ls :: _ =>
      if zlen (ls_syms ls) - 1 <? idx then Ok (err v E_LNUM)
      else match nth_error (ls_syms ls) (Z.to_nat idx) with
           | Some (Some o) => Ok (push v o)
           | _ => UB
           end
  end.
(** buzzdarray_set beyond the size (buzzdarray.c 188-202): the array grows, the slots between
    stay uninitialised (C02). *)
Definition slot_set (l : list (option obj)) (i : nat) (o : obj) : list (option obj) :=
  if Nat.ltb i (length l) then upd l i (Some o) else l ++ repeat None (i - length l) ++ [Some o].
(** buzzvm_lstore, buzzvm.c 1693-1699. *)
Definition vm_lstore v (idx : Z) : res vm :=
  stack_assert v 1 (
    match stack v, v_lsymts v with
    | o :: s, ls :: t =>
        Ok (set_lsymts (set_stack v s) (mkLs (slot_set (ls_syms ls) (Z.to_nat idx) o) (ls_swarm ls) :: t))
    | _, _ => UB
    end).
(** buzzvm_lremove, buzzvm.c 1701-1710: the error does not prevent the removal. *)
Definition vm_lremove v (num : Z) : res vm :=
  match v_lsymts v with
  | [] => UB
  | ls :: t =>
      let v1 := if zlen (ls_syms ls) - 1 <? num then err v E_LNUM else v in
      Ok (set_lsymts v1 (mkLs (firstn (length (ls_syms ls) - Z.to_nat num) (ls_syms ls)) (ls_swarm ls) :: t))
  end.

(** ** One step *)

(** The bytecode: the bytes found at bcode + i.  What lies outside 0..size-1 is whatever the
    memory around the bytecode holds (reading it is undefined in C; C36 is about it). *)
Variable code : Z -> Z.
Variable size : Z.      (* bcode_size, uint32_t *)

(** assert_pc, buzzvm.c 710. *)
Definition pc_ok (p : Z) : bool := (0 <=? p) && (p <? size).
Definition assert_pc v : vm := if pc_ok (v_pc v) then v else err v E_PC.
(** inc_pc, buzzvm.c 712; [k] is the rest of the function. *)
Definition inc_pc v (k : vm -> res vm) : res vm :=
  let v1 := set_pc (set_oldpc v (v_pc v)) (v_pc v + 1) in
  if pc_ok (v_pc v1) then k v1 else Ok (err v1 E_PC).
(** The 32-bit word at an offset. *)
Definition word (p : Z) : Z := code p + 256 * code (p + 1) + 65536 * code (p + 2) + 16777216 * code (p + 3).
(** get_arg, buzzvm.c 714. *)
Definition get_arg v (k : vm -> Z -> res vm) : res vm :=
  if pc_ok (v_pc v + 4) then k (set_pc v (v_pc v + 4)) (word (v_pc v)) else Ok (err v E_PC).
(** "if(op(vm) != READY) return vm->state" followed by [k]. *)
Definition if_ready (r : res vm) (k : vm -> res vm) : res vm :=
  v1 <- r ;; if is_ready (v_state v1) then k v1 else Ok v1.
Definition done_ (v : vm) : res vm := Ok v.
(** An operation without check of its state, then inc_pc. *)
Definition op_inc (r : res vm) : res vm := v1 <- r ;; inc_pc v1 done_.
(** The conditional jumps, buzzvm.c 954-983. *)
Definition vm_jumpif v (t : bool) : res vm :=
  inc_pc v (fun v => get_arg v (fun v arg =>
    stack_assert v 1 (
      o <- stack_at v 1 ;;
      if Bool.eqb (truthy o) t then
        let v1 := assert_pc (set_pc v (sign32 arg)) in
        if is_ready (v_state v1) then Ok (vm_pop v1) else Ok v1
      else Ok (vm_pop v)))).

(** The switch of buzzvm_step, buzzvm.c 725-991. *)
Definition exec v (o : opcode) : res vm :=
  match o with
  | I_NOP => inc_pc v done_
  | I_DONE => Ok (set_state v S_DONE (v_error v))
  | I_PUSHNIL => inc_pc v (fun v => Ok (push v ONil))
  | I_DUP => inc_pc v (fun v => Ok (vm_dup v))
  | I_POP => if_ready (Ok (vm_pop v)) (fun v => inc_pc v done_)
  | I_RET0 => if_ready (vm_ret0 v) (fun v => Ok (assert_pc v))
  | I_RET1 => if_ready (vm_ret1 v) (fun v => Ok (assert_pc v))
  | I_ADD => op_inc (vm_arith v int_add fadd)
  | I_SUB => op_inc (vm_arith v int_sub fsub)
  | I_MUL => op_inc (vm_arith v int_mul fmul)
  | I_DIV => op_inc (vm_arith v int_div fdiv)
  | I_MOD => op_inc (vm_mod v)
  | I_POW => op_inc (vm_pow v)
  | I_UNM => op_inc (vm_unm v)
  | I_LAND => op_inc (vm_logic v andb)
  | I_LOR => op_inc (vm_logic v orb)
  | I_LNOT => op_inc (vm_lnot v)
  | I_BAND => op_inc (vm_bitwise v int_and)
  | I_BOR => op_inc (vm_bitwise v int_or)
  | I_BNOT => op_inc (vm_bnot v)
  | I_LSHIFT => op_inc (vm_bitwise v int_shl)
  | I_RSHIFT => op_inc (vm_bitwise v int_shr)
  | I_EQ => op_inc (vm_cmp v (fun c => c =? 0))
  | I_NEQ => op_inc (vm_cmp v (fun c => negb (c =? 0)))
  | I_GT => op_inc (vm_cmp v (fun c => c >? 0))
  | I_GTE => op_inc (vm_cmp v (fun c => c >=? 0))
  | I_LT => op_inc (vm_cmp v (fun c => c <? 0))
  | I_LTE => op_inc (vm_cmp v (fun c => c <=? 0))
  | I_GLOAD => inc_pc v vm_gload
  | I_GSTORE => inc_pc v vm_gstore
  | I_PUSHT => op_inc (Ok (vm_pusht v))
  | I_TPUT => if_ready (vm_tput v) (fun v => inc_pc v done_)
  | I_TGET => if_ready (vm_tget v) (fun v => inc_pc v done_)
  | I_CALLC => inc_pc v (fun v => if_ready (vm_call v false) (fun v => Ok (assert_pc v)))
  | I_CALLS => inc_pc v (fun v => if_ready (vm_call v true) (fun v => Ok (assert_pc v)))
  | I_PUSHF => inc_pc v (fun v => get_arg v (fun v a => Ok (push v (OFloat (f_of_bits a)))))
  | I_PUSHI => inc_pc v (fun v => get_arg v (fun v a => Ok (push v (OInt (sign32 a)))))
  | I_PUSHS => inc_pc v (fun v => get_arg v (fun v a => Ok (vm_pushs v a)))
  | I_PUSHCN => inc_pc v (fun v => get_arg v (fun v a => Ok (vm_pushc v a true)))
  | I_PUSHCC => inc_pc v (fun v => get_arg v (fun v a => Ok (vm_pushc v a false)))
  | I_PUSHL => inc_pc v (fun v => get_arg v vm_pushl)
  | I_LLOAD => inc_pc v (fun v => get_arg v vm_lload)
  | I_LSTORE => inc_pc v (fun v => get_arg v vm_lstore)
  | I_LREMOVE => inc_pc v (fun v => get_arg v vm_lremove)
  | I_JUMP => inc_pc v (fun v => get_arg v (fun v a => Ok (assert_pc (set_pc v (sign32 a)))))
  | I_JUMPZ => vm_jumpif v false
  | I_JUMPNZ => vm_jumpif v true
  end.
(** buzzvm_step, buzzvm.c 716-993 (without the garbage collection of line 721). *)
Definition vm_step v : res vm :=
  if is_ready (v_state v) then
    match opcode_of (code (v_pc v)) with
    | Some o => exec v o
    | None => Ok (err v E_INSTR)
    end
  else Ok v.
(** Any number of steps. *)
Fixpoint vm_steps (n : nat) v : res vm :=
  match n with O => Ok v | S m => v1 <- vm_step v ;; vm_steps m v1 end.
(** buzzvm_execute_script, buzzvm.c 998-1001. *)
Fixpoint execute_script (fuel : nat) v : res vm :=
  match fuel with
  | O => Hang
  | S f => v1 <- vm_step v ;; if is_ready (v_state v1) then execute_script f v1 else Ok v1
  end.

(** The loop of buzzvm_closure_call, buzzvm.c 1020-1021. *)
Fixpoint step_until (fuel : nat) (depth : Z) v : res vm :=
  match fuel with
  | O => Hang
  | S f =>
      v1 <- vm_step v ;;
      if negb (is_ready (v_state v1)) then Ok v1
      else if depth <? zlen (v_stacks v1) then step_until f depth v1 else Ok v1
  end.
(** buzzvm_closure_call, buzzvm.c 1006-1023.  The nil self object is inserted under the closure
    and its arguments; with fewer elements on the stack the position wraps around. *)
Definition closure_call (fuel : nat) v (argc : Z) : res vm :=
  let n := Z.to_nat (argc + 1) in
  let s := stack v in
  if zlen s <? argc + 1 then UB
  else
    let v1 := push (set_stack v (firstn n s ++ ONil :: skipn n s)) (OInt argc) in
    v2 <- vm_call v1 false ;;
    step_until fuel (zlen (v_stacks v1)) v2.

(** buzzvm_function_call, buzzvm.c 1028-1067.  With arguments, line 1059 gives buzzdarray_insert
    the object instead of its address: the first bytes of the object are taken for a pointer,
    which buzzvm_call then dereferences. *)
Definition function_call (fuel : nat) v (fname : str) (argc : Z) : res vm :=
  let v := match v_state v with S_DONE => set_state v S_READY (v_error v) | _ => v end in
  if negb (is_ready (v_state v)) then Ok v
  else
    '(sm', id) <- sm_register sm_fuel (v_str v) fname false ;;
    v2 <- vm_gload (vm_pushs (set_str v sm') id) ;;
    o <- stack_at v2 1 ;;
    match o with
    | OClos _ _ _ => if 0 <? argc then UB else closure_call fuel v2 argc
    | _ => Ok (err v2 E_TYPE)
    end.
End Vm.
