(** Model of the assembler and the disassembler, src/buzz/buzzasm.c.

    A file is the list of its bytes.  strtof(), and printf's %f, are arguments.  Allocation and
    writing to files succeed; code stays below 2^31 bytes (offsets are int32_t).  Warnings and error
    messages are not modelled. *)
From Coq Require Import String.
From Verif Require Import Base Dict PDict Strman Instr Text.

(** buzzvm_instr_desc, buzzvm.c 19. *)
Definition opname (o : opcode) : list Z :=
  bs match o with
     | I_NOP => "nop" | I_DONE => "done" | I_PUSHNIL => "pushnil" | I_DUP => "dup" | I_POP => "pop"
     | I_RET0 => "ret0" | I_RET1 => "ret1" | I_ADD => "add" | I_SUB => "sub" | I_MUL => "mul" | I_DIV => "div"
     | I_MOD => "mod" | I_POW => "pow" | I_UNM => "unm" | I_LAND => "land" | I_LOR => "lor" | I_LNOT => "lnot"
     | I_BAND => "band" | I_BOR => "bor" | I_BNOT => "bnot" | I_LSHIFT => "lshift" | I_RSHIFT => "rshift"
     | I_EQ => "eq" | I_NEQ => "neq" | I_GT => "gt" | I_GTE => "gte" | I_LT => "lt" | I_LTE => "lte"
     | I_GLOAD => "gload" | I_GSTORE => "gstore" | I_PUSHT => "pusht" | I_TPUT => "tput" | I_TGET => "tget"
     | I_CALLC => "callc" | I_CALLS => "calls" | I_PUSHF => "pushf" | I_PUSHI => "pushi" | I_PUSHS => "pushs"
     | I_PUSHCN => "pushcn" | I_PUSHCC => "pushcc" | I_PUSHL => "pushl" | I_LLOAD => "lload"
     | I_LSTORE => "lstore" | I_LREMOVE => "lremove" | I_JUMP => "jump" | I_JUMPZ => "jumpz"
     | I_JUMPNZ => "jumpnz"
     end%string.

(** Which macro handles the instruction, buzzasm.c 260-306. *)
Inductive argkind := A_none | A_float | A_int | A_label.
Definition arg_kind (o : opcode) : argkind :=
  match o with
  | I_PUSHF => A_float
  | I_PUSHI | I_PUSHS | I_PUSHCN | I_PUSHCC | I_PUSHL | I_LLOAD | I_LSTORE | I_LREMOVE => A_int
  | I_JUMP | I_JUMPZ | I_JUMPNZ => A_label
  | _ => A_none
  end.

(** strcmp(a, b) == 0. *)
Definition streq (a b : list Z) : bool := strcmp a b =? 0.

(** The comparisons of buzzasm.c 260-306, in the order of the file (that of the enum). *)
Definition find_op (name : list Z) : option opcode := find (fun o => streq name (opname o)) opcodes.

(** State of the first pass: *buf (its first *size bytes), bcode_max_size, labpos, labsubs, and the
    calls to buzzdebug_info_set().  The four bytes of a label argument are uninitialised
    until the second pass; they are 0 here. *)
Record asm := mkAsm {
  a_buf : list Z; a_cap : Z;
  a_labpos : pdict str Z;
  a_labsubs : pdict Z str;
  a_dbg : list (Z * Z * Z * str)      (* offset, line, column, file; oldest first *)
}.
Definition lp_get := pget (V:=Z) strkeyhash strcmp.
Definition lp_set := pset (V:=Z) strkeyhash strcmp.
Definition ls_set := pset (V:=str) uintkeyhash intkeycmp.

(** buzzasm.c 147-171. *)
Definition asm_new : asm := mkAsm [] 256 (pnew 100) (pnew 100) [].
Definition a_size (st : asm) : Z := zlen (a_buf st).

(** bcode_resize, buzzasm.c 16-20. *)
Definition bcode_resize (st : asm) (inc : Z) : asm :=
  mkAsm (a_buf st) (if a_cap st <=? a_size st + inc then a_cap st + inc else a_cap st)
        (a_labpos st) (a_labsubs st) (a_dbg st).
(** Writing at *size and advancing it; undefined outside the buffer. *)
Definition bcode_write (st : asm) (l : list Z) : res asm :=
  if a_size st + zlen l <=? a_cap st
  then Ok (mkAsm (a_buf st ++ l) (a_cap st) (a_labpos st) (a_labsubs st) (a_dbg st))
  else UB.
Definition set_labpos (st : asm) (name : str) : asm :=
  mkAsm (a_buf st) (a_cap st) (lp_set (a_labpos st) name (a_size st)) (a_labsubs st) (a_dbg st).
Definition set_labsub (st : asm) (name : str) : asm :=
  mkAsm (a_buf st) (a_cap st) (a_labpos st) (ls_set (a_labsubs st) (a_size st) name) (a_dbg st).
Definition add_dbg (st : asm) (l c : Z) (f : str) : asm :=
  mkAsm (a_buf st) (a_cap st) (a_labpos st) (a_labsubs st) (a_dbg st ++ [(a_size st, l, c, f)]).

(** Debug information after the bar, buzzasm.c 218-230 and 246-258.  strtol's result is converted to
    uint64_t. *)
Definition asm_debug (st : asm) (info : option (list Z)) : asm :=
  match info with
  | None | Some [] => st
  | Some _ =>
      let '(line, r1) := strsep [COMMA; NL] info in
      let '(col, r2) := strsep [COMMA; NL] r1 in
      let '(src, _) := strsep [COMMA; NL] r2 in
      match src with
      | None => st
      | Some f =>
          let num o := match o with Some s => wrap64 (strtol s) | None => 0 end in
          add_dbg st (num line) (num col) f
      end
  end.

(** Removing trailing blanks, buzzasm.c 200-202 and 232-234; the first character stays.  [s]
    is not empty. *)
Fixpoint rtrim_all (s : list Z) : list Z :=
  match s with
  | [] => []
  | c :: t => match rtrim_all t with
              | [] => if isspace c then [] else [c]
              | u => c :: u
              end
  end.
Definition rtrim (s : list Z) : list Z := match s with [] => [] | c :: t => c :: rtrim_all t end.

Section Asm.
(** strtof: the bits of the float; [None]: no conversion. *)
Variable strtof : list Z -> option Z.

(** The outcome of a line: the new state, or the return value of buzz_asm. *)
Definition go (r : res asm) : res (asm + Z) := st <- r ;; Ok (inl st).
Definition missing (arg : option (list Z)) : bool := match arg with None | Some [] => true | _ => false end.
Definition arg_text (arg : option (list Z)) : list Z := match arg with Some a => a | None => [] end.

(** bcode_add_arg, buzzasm.c 35-49: [conv] is the converted value (its 32 bits). *)
Definition add_arg (st : asm) (arg : option (list Z)) (conv : list Z -> option Z) : res (asm + Z) :=
  let st1 := bcode_resize st 4 in
  if missing arg then Ok (inr 2)
  else match conv (arg_text arg) with
       | Some w => go (bcode_write st1 (le32 w))
       | None => go (bcode_write (set_labsub st1 (arg_text arg)) (le32 0))
       end.
(** bcode_add_arg_l, buzzasm.c 64-73. *)
Definition add_label_arg (st : asm) (arg : option (list Z)) : res (asm + Z) :=
  let st1 := bcode_resize st 4 in
  if missing arg then Ok (inr 2)
  else go (bcode_write (set_labsub st1 (arg_text arg)) (le32 0)).

(** An instruction line, buzzasm.c 240-309. *)
Definition asm_instr (st : asm) (line : list Z) : res (asm + Z) :=
  let '(instrinfo, r1) := strsep [BAR; NL] (Some line) in
  let '(debuginfo, _) := strsep [BAR; NL] r1 in
  let '(instr, r2) := strsep [SP; NL; TAB] instrinfo in
  let '(argstr, _) := strsep [SP; NL; TAB] r2 in
  let st1 := asm_debug st debuginfo in
  match find_op (arg_text instr) with
  | None => Ok (inr 2)
  | Some o =>
      st2 <- bcode_write (bcode_resize st1 1) [opnum o] ;;
      match arg_kind o with
      | A_none => Ok (inl st2)
      | A_float => add_arg st2 argstr strtof
      | A_int => add_arg st2 argstr (fun s => match strtoul s with Some w => Some (wrap32 w) | None => None end)
      | A_label => add_label_arg st2 argstr
      end
  end.

(** A label line, buzzasm.c 213-239. *)
Definition asm_label (st : asm) (line : list Z) : res (asm + Z) :=
  let '(labelinfo, r1) := strsep [BAR; NL] (Some line) in
  let '(debuginfo, _) := strsep [BAR; NL] r1 in
  let st1 := asm_debug st debuginfo in
  Ok (inl (set_labpos st1 (rtrim (arg_text labelinfo)))).

(** One line of the first pass, buzzasm.c 181-310.  A line with a single quote and nothing else, not
    even a newline, writes before the string (192). *)
Definition asm_line (st : asm) (raw : list Z) : res (asm + Z) :=
  match drop_while isspace (cstr raw) with
  | [] => Ok (inl st)
  | c :: t =>
      if c =? 35 (* # *) then Ok (inl st)
      else if c =? 39 (* ' *) then
        match t with
        | [] => UB
        | _ => let s := removelast t in
               go (bcode_write (bcode_resize st (zlen s + 1)) (s ++ [0]))
        end
      else
        let line := rtrim (c :: t) in
        if c =? 33 (* ! *) then
          let n := wrap16 (strtol (tl line)) in
          go (bcode_write (bcode_resize st 2) [n mod 256; n / 256])
        else if c =? 64 (* @ *) then asm_label st line
        else asm_instr st line
  end.

(** The first pass. *)
Fixpoint asm_pass1 (st : asm) (ls : list (list Z)) : res (asm + Z) :=
  match ls with
  | [] => Ok (inl st)
  | l :: t => r <- asm_line st l ;;
              match r with
              | inl st1 => asm_pass1 st1 t
              | inr e => Ok (inr e)
              end
  end.

(** memcpy(buf + pos, l). *)
Definition patch (buf : list Z) (pos : Z) (l : list Z) : res (list Z) :=
  if (0 <=? pos) && (pos + zlen l <=? zlen buf)
  then Ok (firstn (Z.to_nat pos) buf ++ l ++ skipn (Z.to_nat (pos + zlen l)) buf)
  else UB.
(** buzz_asm_labsub, buzzasm.c 113-137; the state is the buffer and retval. *)
Definition labsub (labpos : pdict str Z) (acc : list Z * Z) (e : Z * str) : res (list Z * Z) :=
  let '(buf, ret) := acc in
  if ret =? 0 then
    match lp_get labpos (snd e) with
    | None => Ok (buf, 2)
    | Some p => if zlen buf <=? p then Ok (buf, 2)
                else b <- patch buf (fst e) (le32 p) ;; Ok (b, ret)
    end
  else Ok acc.
Fixpoint labsubs_run (labpos : pdict str Z) (l : list (Z * str)) (acc : list Z * Z) : res (list Z * Z) :=
  match l with
  | [] => Ok acc
  | e :: t => acc1 <- labsub labpos acc e ;; labsubs_run labpos t acc1
  end.

(** buzz_asm, buzzasm.c 142-330, on the contents of the file: the return value, the bytecode and the
    debug records. *)
Definition buzz_asm (file : list Z) : res (Z * list Z * list (Z * Z * Z * str)) :=
  r <- asm_pass1 asm_new (lines file) ;;
  match r with
  | inr e => Ok (e, [], [])
  | inl st =>
      '(buf, ret) <- labsubs_run (a_labpos st) (pentries (a_labsubs st)) (a_buf st, 0) ;;
      Ok (ret, buf, a_dbg st)
  end.
End Asm.

(** ** Disassembler *)

Section Deasm.
(** printf("%f") of the float with the given bits; the debug information recorded for an offset. *)
Variable fmt_f : Z -> list Z.
Variable dbg : Z -> option (Z * Z * str).

(** Reading [n] bytes of a buffer of which only the first ones exist. *)
Definition rd (buf : list Z) (i : Z) : res Z :=
  if 0 <=? i then match nth_error buf (Z.to_nat i) with Some b => Ok b | None => UB end else UB.
Definition rd32 (buf : list Z) (i : Z) : res Z :=
  a <- rd buf i ;; b <- rd buf (i + 1) ;; c <- rd buf (i + 2) ;; d <- rd buf (i + 3) ;;
  Ok (a + 256 * b + 65536 * c + 16777216 * d).
(** The C string at an address. *)
Fixpoint rd_cstr (fuel : nat) (buf : list Z) (i : Z) : res (list Z) :=
  match fuel with
  | O => Hang
  | S f => c <- rd buf i ;; if c =? 0 then Ok [] else t <- rd_cstr f buf (i + 1) ;; Ok (c :: t)
  end.

(** Phase 1, buzzasm.c 364-376: the text and the offset after the strings.  [None]: the error of
    377-381. *)
Fixpoint deasm_strings (n : nat) (buf : list Z) (i : Z) : res (option (list Z * Z)) :=
  match n with
  | O => Ok (Some ([], i))
  | S m =>
      if i <? zlen buf then
        s <- rd_cstr (S (length buf)) buf i ;;
        r <- deasm_strings m buf (i + zlen s + 1) ;;
        Ok (match r with Some (t, j) => Some ((39 :: s) ++ [NL] ++ t, j) | None => None end)
      else Ok None
  end.
(** The debug information of an instruction, buzzasm.c 342-347 and 409-414. *)
Definition deasm_debug (i : Z) : list Z :=
  match dbg i with
  | None => []
  | Some (l, c, f) => [TAB; BAR] ++ print_u l ++ [COMMA] ++ print_u c ++ [COMMA] ++ f
  end.
(** Phase 2, buzzasm.c 388-418.  [None]: an error return. *)
Fixpoint deasm_code (fuel : nat) (buf : list Z) (i : Z) : res (option (list Z)) :=
  match fuel with
  | O => Hang
  | S f =>
      if i <? zlen buf then
        b <- rd buf i ;;
        match opcode_of b with
        | None => Ok None
        | Some o =>
            let head := print_u i ++ [58; TAB] ++ opname o in
            if 35 <=? b then
              if zlen buf <=? i + 4 then Ok None
              else
                w <- rd32 buf (i + 1) ;;
                r <- deasm_code f buf (i + 5) ;;
                Ok (match r with
                    | Some t => Some (head ++ [SP] ++ (if b =? 35 then fmt_f w else print_d (sign32 w))
                                      ++ deasm_debug i ++ [NL] ++ t)
                    | None => None
                    end)
            else
              r <- deasm_code f buf (i + 1) ;;
              Ok (match r with Some t => Some (head ++ deasm_debug i ++ [NL] ++ t) | None => None end)
        end
      else Ok (Some [])
  end.
(** buzz_deasm, buzzasm.c 350-422: the text written; [None]: the function returns 2 (what it wrote before
    is not modelled). *)
Definition buzz_deasm (buf : list Z) : res (option (list Z)) :=
  a <- rd buf 0 ;; b <- rd buf 1 ;;
  let count := a + 256 * b in
  r <- deasm_strings (Z.to_nat count) buf 2 ;;
  match r with
  | None => Ok None
  | Some (t, i) =>
      c <- deasm_code (S (length buf)) buf i ;;
      Ok (match c with Some u => Some ((33 :: print_u count) ++ [NL] ++ t ++ u) | None => None end)
  end.

(** buzz_instruction_deasm, buzzasm.c 427-453; [None]: it returns 0. *)
Definition instruction_deasm (buf : list Z) (off : Z) : res (option (list Z)) :=
  b <- rd buf off ;;
  match opcode_of b with
  | None => Ok None
  | Some o =>
      if 35 <=? b then
        w <- rd32 buf (off + 1) ;;
        Ok (Some (opname o ++ [SP] ++ (if b =? 35 then fmt_f w else print_d (sign32 w))))
      else Ok (Some (opname o))
  end.
End Deasm.
