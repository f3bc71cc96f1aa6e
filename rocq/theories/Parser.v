(** Model of the compiler proper, src/buzz/buzzparser.c: from tokens to assembly text.

    The parser works on the tokens the lexer (Lex.v) delivers; [p_more] tells whether the lexer still
    has files open after the end-of-file token (a lexical error or a failed inclusion).  Asking the
    lexer for a token after the end of file is undefined behaviour (its stack of files is empty).  The
    code of a chunk is the text in its buffer; the capacity of the buffers is not modelled (they grow
    before every write, 253-256 and 318-321).  Error messages are not modelled, except that a
    message quoting the current file (buzzlex_getfile) is undefined when no file is open.
    Allocation succeeds; the counter of labels (uint32_t) does not wrap around.
    parse_idreflist (1194-1217) is never called and not modelled. *)
From Coq Require Import String.
From Verif Require Import Base Dict PDict Strman Text Lex.
Local Open Scope Z_scope. Local Open Scope list_scope.

(** ** State *)

(** struct sym_s, 80-90, without the field type, which is never read. *)
Record psym := mkSym { sy_pos : Z; sy_global : bool }.
(** A symbol table: SYMT_BUCKETS is 100 (161). *)
Definition symtab : Type := pdict str psym.
Definition symtab_new : symtab := pnew 100.
Definition symt_get : symtab -> str -> option psym := pget strkeyhash strcmp.
Definition symt_set : symtab -> str -> psym -> symtab := pset strkeyhash strcmp.

(** struct chunk_s, 206-217.  The pointer c->sym: the symbol it points to and the symbol's name;
    [cs_alive] becomes false when that symbol is freed. *)
Record csym := mkCs { cs_name : str; cs_sym : psym; cs_alive : bool }.
Record chunk := mkChunk { c_label : Z; c_sym : option csym; c_code : list Z }.

(** struct buzzparser_s, buzzparser.h.  [p_code]: the code of the current chunk (or of the buffer
    that replaces it between chunk_buf_push and chunk_buf_pop); the symbol tables are listed from
    the top of the stack. *)
Record pst := mkP {
  p_tok : token;                  (* tok *)
  p_rest : list token;            (* what lex will deliver before the end of file *)
  p_more : bool;
  p_labels : Z;                   (* labels *)
  p_strs : pdict str Z;           (* strings *)
  p_symst : list symtab;          (* symstack; syms is the first one *)
  p_chunks : list chunk;          (* chunks *)
  p_code : list Z
}.
Definition ty (st : pst) : toktype := t_type (p_tok st).
Definition set_tok st t r := mkP t r (p_more st) (p_labels st) (p_strs st) (p_symst st) (p_chunks st) (p_code st).
Definition set_labels st n := mkP (p_tok st) (p_rest st) (p_more st) n (p_strs st) (p_symst st) (p_chunks st) (p_code st).
Definition set_strs st d := mkP (p_tok st) (p_rest st) (p_more st) (p_labels st) d (p_symst st) (p_chunks st) (p_code st).
Definition set_symst st l := mkP (p_tok st) (p_rest st) (p_more st) (p_labels st) (p_strs st) l (p_chunks st) (p_code st).
Definition set_chunks st l := mkP (p_tok st) (p_rest st) (p_more st) (p_labels st) (p_strs st) (p_symst st) l (p_code st).
Definition set_code st c := mkP (p_tok st) (p_rest st) (p_more st) (p_labels st) (p_strs st) (p_symst st) (p_chunks st) c.

Definition tok_eqb (a b : toktype) : bool :=
  match a, b with
  | TOK_ID, TOK_ID | TOK_CONST, TOK_CONST | TOK_STRING, TOK_STRING | TOK_VAR, TOK_VAR | TOK_NIL, TOK_NIL
  | TOK_IF, TOK_IF | TOK_ELSE, TOK_ELSE | TOK_FUN, TOK_FUN | TOK_RETURN, TOK_RETURN | TOK_FOR, TOK_FOR
  | TOK_WHILE, TOK_WHILE | TOK_LANDOR, TOK_LANDOR | TOK_LNOT, TOK_LNOT | TOK_ADDSUB, TOK_ADDSUB
  | TOK_MULDIV, TOK_MULDIV | TOK_MOD, TOK_MOD | TOK_POW, TOK_POW | TOK_LRSHIFT, TOK_LRSHIFT
  | TOK_BANDOR, TOK_BANDOR | TOK_BNOT, TOK_BNOT | TOK_BLOCKOPEN, TOK_BLOCKOPEN | TOK_BLOCKCLOSE, TOK_BLOCKCLOSE
  | TOK_PAROPEN, TOK_PAROPEN | TOK_PARCLOSE, TOK_PARCLOSE | TOK_IDXOPEN, TOK_IDXOPEN | TOK_IDXCLOSE, TOK_IDXCLOSE
  | TOK_STATEND, TOK_STATEND | TOK_LISTSEP, TOK_LISTSEP | TOK_ASSIGN, TOK_ASSIGN | TOK_DOT, TOK_DOT
  | TOK_CMP, TOK_CMP | TOK_EOF, TOK_EOF => true
  | _, _ => false
  end.

(** ** Results: a function returns PARSE_OK with the new state (and, for parse_idref and
    parse_conditionlist, struct idrefinfo_s or the number of arguments), or PARSE_ERROR
    ([Ok None]). *)
Definition pinfo : Type := Z * bool.
Definition pres : Type := res (option (pst * pinfo)).
Definition perror : pres := Ok None.
Definition pok (st : pst) : pres := Ok (Some (st, (0, false))).
Definition pbind (e : pres) (f : pst -> pinfo -> pres) : pres :=
  match e with
  | Ok (Some (st, i)) => f st i
  | Ok None => Ok None
  | Abort => Abort | UB => UB | Hang => Hang
  end.
Notation "s <~ e ;; f" := (pbind e (fun s _ => f)) (at level 61, e at next level, right associativity).
Notation "'[ s ; i ] <~ e ;; f" := (pbind e (fun s i => f)) (at level 61, e at next level, right associativity).

(** ** Tokens *)
(** The tokens the next calls of buzzlex_nexttok deliver, statement ends skipped. *)
Fixpoint next_tok (l : list token) : token * list token :=
  match l with
  | [] => (eoftok, [])
  | t :: r => if tok_eqb (t_type t) TOK_STATEND then next_tok r else (t, r)
  end.
(** fetchtok, 344-350. *)
Definition fetch (st : pst) (k : pst -> pres) : pres :=
  match ty st with
  | TOK_EOF => UB
  | _ => let '(t, r) := next_tok (p_rest st) in k (set_tok st t r)
  end.
(** match and tokmatch, 352-373: at the end of the file the message does not quote the lexer's file. *)
Definition tokmatch (t : toktype) (st : pst) (k : pres) : pres := if tok_eqb (ty st) t then k else perror.
(** An error message with buzzlex_getfile(par->lex)->fname. *)
Definition perror_at (st : pst) : pres := if tok_eqb (ty st) TOK_EOF && negb (p_more st) then UB else perror.

(** ** Strings, 57-70: the position is a uint16_t. *)
Definition str_get : pdict str Z -> str -> option Z := pget strkeyhash strcmp.
Definition string_add (d : pdict str Z) (s : str) : pdict str Z * Z :=
  match str_get d s with
  | Some p => (d, p)
  | None => let p := wrap16 (psize d) in (pset strkeyhash strcmp d s p, p)
  end.

(** ** Symbols *)
(** sym_lookup, 92-106. *)
Fixpoint sym_lookup (s : str) (l : list symtab) : option psym :=
  match l with
  | [] => None
  | t :: r => match symt_get t s with Some x => Some x | None => sym_lookup s r end
  end.
Definition top (st : pst) : symtab := hd symtab_new (p_symst st).
(** Replacing the entry of [s] in the base table frees the old symbol (buzzdict_set calls the
    destructor, buzzdict.c 115): chunks pointing to it are left with a dangling pointer. *)
Definition kill (s : str) (c : chunk) : chunk :=
  match c_sym c with
  | Some x => if strcmp s (cs_name x) =? 0 then mkChunk (c_label c) (Some (mkCs (cs_name x) (cs_sym x) false)) (c_code c) else c
  | None => c
  end.
Fixpoint set_base (l : list symtab) (f : symtab -> symtab) : list symtab :=
  match l with
  | [] => []
  | [t] => [f t]
  | t :: r => t :: set_base r f
  end.
(** sym_add, 108-138. *)
Inductive scope := SCOPE_LOCAL | SCOPE_GLOBAL | SCOPE_AUTO.
Definition sym_add (st : pst) (s : str) (sc : scope) : pst :=
  let global := match sc with SCOPE_AUTO => zlen (p_symst st) =? 1 | SCOPE_GLOBAL => true | SCOPE_LOCAL => false end in
  if global then
    let '(d, pos) := string_add (p_strs st) s in
    let st1 := set_strs st d in
    let st2 := match symt_get (last (p_symst st) symtab_new) s with
               | Some _ => set_chunks st1 (map (kill s) (p_chunks st1))
               | None => st1
               end in
    set_symst st2 (set_base (p_symst st) (fun t => symt_set t s (mkSym pos true)))
  else
    let pos := psize (top st) in
    set_symst st (symt_set (top st) s (mkSym pos false) :: tl (p_symst st)).
(** symt_push, symt_clone, symt_pop, 177-181. *)
Definition symt_push (st : pst) : pst := set_symst st (symtab_new :: p_symst st).
Definition symt_clone (st : pst) : pst :=
  set_symst st (fold_left (fun t e => symt_set t (fst e) (snd e)) (pentries (top st)) symtab_new :: p_symst st).
Definition symt_pop (st : pst) : pst := set_symst st (tl (p_symst st)).

(** ** Code *)
(** chunk_addcode, 241-263; the token of the end of the file has no file name, and glibc prints a
    NULL string as (null). *)
Definition tok_dbg (t : token) : list Z :=
  [TAB; BAR] ++ print_u (t_line t) ++ [COMMA] ++ print_u (t_col t) ++ [COMMA] ++
  (if tok_eqb (t_type t) TOK_EOF then bs "(null)" else t_file t).
Definition code_line (t : token) (txt : list Z) : list Z := txt ++ tok_dbg t ++ [NL].
(** chunk_append, 273-278. *)
Definition emit (st : pst) (txt : list Z) : pst := set_code st (p_code st ++ code_line (p_tok st) txt).
(** "\top" and "\top arg". *)
Definition i0 (name : string) : list Z := TAB :: bs name.
Definition i1 (name : string) (arg : list Z) : list Z := TAB :: bs name ++ SP :: arg.
(** LABELREF "%u", 197. *)
Definition labref (n : Z) : list Z := bs "@__label_" ++ print_u n.

(** chunk_push, 308-312: the new chunk is appended to the list; its index and the code of the
    chunk it interrupts are kept by the caller. *)
Definition chunk_push (st : pst) (sy : option csym) : pst :=
  set_labels (set_code (set_chunks st (p_chunks st ++ [mkChunk (p_labels st) sy []])) []) (p_labels st + 1).
(** chunk_pop, 314: the finished code goes to chunk number [i], [old] becomes current again. *)
Definition chunk_pop (st : pst) (i : nat) (old : list Z) : pst :=
  set_code (set_chunks st
    match nth_error (p_chunks st) i with
    | Some c => upd (p_chunks st) i (mkChunk (c_label c) (c_sym c) (p_code st))
    | None => p_chunks st
    end) old.

(** ** The grammar *)
Inductive nt :=
| N_statlist | N_statloop | N_stat | N_block (push : bool) | N_blockstat
| N_var | N_fun | N_if | N_for | N_while
| N_condlist | N_condargs (n : Z) | N_condition | N_condloop | N_comparison
| N_expression | N_tabloop | N_addloop | N_product | N_mulloop | N_modulo | N_modloop
| N_power | N_powerrest | N_bitshift | N_shiftloop | N_bitandor | N_bitloop | N_bitnot | N_operand
| N_command | N_idlist | N_idloop
| N_idref (lvalue : bool) | N_idrefloop (lvalue : bool) (pre : list Z) (pos : Z) (info : Z) (global : bool)
| N_lambda.

(** TYPE_CLOSURE, TYPE_TABLE, 13-14. *)
Definition TYPE_CLOSURE : Z := -2.
Definition TYPE_TABLE : Z := -3.

(** strchr(value, '.') *)
Definition has_dot (v : list Z) : bool := existsb (Z.eqb 46) v.
(** "\tpushf %s" or "\tpushi %s". *)
Definition push_const (sign v : list Z) : list Z := if has_dot v then i1 "pushf" (sign ++ v) else i1 "pushi" (sign ++ v).
(** The name of a comparison, 834-839; for another text the buffer [op] is not initialised. *)
Definition cmp_name (v : list Z) : option string :=
  if strcmp v (bs "==") =? 0 then Some "eq"%string
  else if strcmp v (bs "!=") =? 0 then Some "neq"%string
  else if strcmp v (bs "<") =? 0 then Some "lt"%string
  else if strcmp v (bs "<=") =? 0 then Some "lte"%string
  else if strcmp v (bs ">") =? 0 then Some "gt"%string
  else if strcmp v (bs ">=") =? 0 then Some "gte"%string
  else None.
(** The key of an entry of a table literal, 870-888 and 906-924. *)
Definition table_key (st : pst) (k : pst -> pres) : pres :=
  match ty st with
  | TOK_ID => let '(d, p) := string_add (p_strs st) (t_value (p_tok st)) in k (emit (set_strs st d) (i1 "pushs" (print_u p)))
  | TOK_CONST => k (emit st (push_const [] (t_value (p_tok st))))
  | _ => perror_at st
  end.
(** Deleting the variables of a block, 511-524. *)
Definition symdel (t : symtab) (maxpos : Z) : symtab :=
  fold_left (fun d e => premove strkeyhash strcmp d (fst e)) (filter (fun e => maxpos <=? sy_pos (snd e)) (pentries t)) t.

(** The code loading a variable or the value of what was parsed so far, 1242-1257 and 1297-1311. *)
Definition load_var (st : pst) (pos info : Z) (global : bool) : pst :=
  if global then emit (emit st (i1 "pushs" (print_d info))) (i0 "gload")
  else if 0 <=? info then emit st (i1 "lload" (print_d pos))
  else if info =? TYPE_TABLE then emit st (i0 "tget")
  else if info =? TYPE_CLOSURE then emit st (i0 "callc")
  else st.
(** The name of a parameter, 1176-1180. *)
Definition add_param (st : pst) : pst :=
  match sym_lookup (t_value (p_tok st)) (p_symst st) with
  | Some x => if sy_global x then sym_add st (t_value (p_tok st)) SCOPE_LOCAL else st
  | None => sym_add st (t_value (p_tok st)) SCOPE_LOCAL
  end.
(** The symbol self, 651-652 and 1334-1335. *)
Definition add_self (st : pst) : pst :=
  match sym_lookup (bs "self") (p_symst st) with
  | Some x => if sy_global x then sym_add st (bs "self") SCOPE_LOCAL else st
  | None => sym_add st (bs "self") SCOPE_LOCAL
  end.

Section Body.
(** The functions called, with less fuel. *)
Variable rec : nt -> pst -> pres.

Definition op_loop (t : toktype) (next loop : nt) (code : list Z -> option (list Z)) (st : pst) : pres :=
  if tok_eqb (ty st) t then
    let v := t_value (p_tok st) in
    fetch st (fun st =>
    st <~ rec next st ;;
    rec loop (match code v with Some c => emit st c | None => st end))
  else pok st.

Definition first_is (v : list Z) (c : Z) : bool := match v with d :: _ => d =? c | [] => false end.

Definition body (x : nt) (st : pst) : pres :=
  match x with
  (* parse_statlist, 425-443: the first statement and the loop *)
  | N_statlist => st <~ rec N_stat st ;; rec N_statloop st
  | N_statloop =>
      match ty st with
      | TOK_EOF | TOK_BLOCKCLOSE => pok st
      | _ =>
          let go (st : pst) : pres :=
            if tok_eqb (ty st) TOK_EOF && p_more st then perror
            else st <~ rec N_stat st ;; rec N_statloop st in
          if tok_eqb (ty st) TOK_STATEND then fetch st go else go st
      end
  (* parse_stat, 445-459 *)
  | N_stat =>
      match ty st with
      | TOK_STATEND | TOK_BLOCKCLOSE => pok st
      | TOK_VAR => rec N_var st
      | TOK_FUN => rec N_fun st
      | TOK_IF => rec N_if st
      | TOK_FOR => rec N_for st
      | TOK_WHILE => rec N_while st
      | _ => rec N_command st
      end
  (* parse_block, 483-531 *)
  | N_block push =>
      tokmatch TOK_BLOCKOPEN st (fetch st (fun st =>
      if tok_eqb (ty st) TOK_BLOCKCLOSE then fetch st pok
      else
        let st := if push then (if zlen (p_symst st) =? 1 then symt_push st else symt_clone st) else st in
        let numvars := psize (top st) in
        st <~ rec N_statlist st ;;
        tokmatch TOK_BLOCKCLOSE st (fetch st (fun st =>
        let new := psize (top st) - numvars in
        let st := if new =? 0 then st else emit st (i1 "lremove" (print_d (sign32 new))) in
        let st := set_symst st (symdel (top st) numvars :: tl (p_symst st)) in
        pok (if push then symt_pop st else st)))))
  (* parse_blockstat, 536-545 *)
  | N_blockstat => if tok_eqb (ty st) TOK_BLOCKOPEN then rec (N_block true) st else rec N_stat st
  (* parse_var, 550-603 *)
  | N_var =>
      tokmatch TOK_VAR st (fetch st (fun st =>
      tokmatch TOK_ID st (
      let name := t_value (p_tok st) in
      let go (st : pst) : pres :=
        let st := sym_add st name SCOPE_AUTO in
        match sym_lookup name (p_symst st) with
        | None => UB
        | Some s =>
            let st := if sy_global s then emit st (i1 "pushs" (print_d (sy_pos s))) else st in
            fetch st (fun st =>
            let finish (st : pst) : pres :=
              pok (if sy_global s then emit st (i0 "gstore") else emit st (i1 "lstore" (print_d (sy_pos s)))) in
            if tok_eqb (ty st) TOK_ASSIGN then
              let st := if sy_global s then st
                        else emit (emit st (i0 "pushnil")) (i1 "lstore" (print_d (sy_pos s))) in
              fetch st (fun st => st <~ rec N_expression st ;; finish st)
            else finish (emit st (i0 "pushnil")))
        end in
      match sym_lookup name (p_symst st) with
      | Some s => if sy_global s then go st else perror_at st
      | None => go st
      end)))
  (* parse_fun, 605-660 *)
  | N_fun =>
      tokmatch TOK_FUN st (fetch st (fun st =>
      tokmatch TOK_ID st (
      if 1 <? zlen (p_symst st) then perror_at st
      else
        let name := t_value (p_tok st) in
        let st := match sym_lookup name (p_symst st) with None => sym_add st name SCOPE_AUTO | Some _ => st end in
        let i := length (p_chunks st) in
        let old := p_code st in
        let st := chunk_push st (match sym_lookup name (p_symst st) with Some s => Some (mkCs name s true) | None => None end) in
        fetch st (fun st =>
        tokmatch TOK_PAROPEN st (fetch st (fun st =>
        let st := add_self (symt_push st) in
        st <~ rec N_idlist st ;;
        tokmatch TOK_PARCLOSE st (fetch st (fun st =>
        let rest (st : pst) : pres :=
          st <~ rec (N_block false) st ;; pok (chunk_pop (symt_pop (emit st (i0 "ret0"))) i old) in
        if tok_eqb (ty st) TOK_STRING then fetch st rest else rest st))))))))
  (* parse_if, 662-698 *)
  | N_if =>
      let lab1 := p_labels st in
      let lab2 := p_labels st + 1 in
      let st := set_labels st (p_labels st + 2) in
      tokmatch TOK_IF st (fetch st (fun st =>
      tokmatch TOK_PAROPEN st (fetch st (fun st =>
      st <~ rec N_condition st ;;
      tokmatch TOK_PARCLOSE st (fetch st (fun st =>
      let st := emit st (i1 "jumpz" (labref lab1)) in
      st <~ rec N_blockstat st ;;
      if tok_eqb (ty st) TOK_ELSE then
        fetch st (fun st =>
        let st := emit (emit st (i1 "jump" (labref lab2))) (labref lab1) in
        st <~ rec N_blockstat st ;;
        pok (emit st (labref lab2)))
      else pok (emit st (labref lab1))))))))
  (* parse_for, 703-763 *)
  | N_for =>
      let lcond := p_labels st in
      let lupdate := lcond + 1 in
      let lbody := lupdate + 1 in
      let lend := lbody + 1 in
      let st := set_labels st (p_labels st + 4) in
      tokmatch TOK_FOR st (fetch st (fun st =>
      tokmatch TOK_PAROPEN st (fetch st (fun st =>
      st <~ rec N_command st ;;
      tokmatch TOK_LISTSEP st (fetch st (fun st =>
      st <~ rec N_condition (emit st (labref lcond)) ;;
      tokmatch TOK_LISTSEP st (fetch st (fun st =>
      let st := emit (emit (emit st (i1 "jumpnz" (labref lbody))) (i1 "jump" (labref lend))) (labref lupdate) in
      st <~ rec N_command st ;;
      tokmatch TOK_PARCLOSE st (fetch st (fun st =>
      let st := emit (emit st (i1 "jump" (labref lcond))) (labref lbody) in
      st <~ rec N_blockstat st ;;
      pok (emit (emit st (i1 "jump" (labref lupdate))) (labref lend))))))))))))
  (* parse_while, 768-793 *)
  | N_while =>
      let wstart := p_labels st in
      let wend := p_labels st + 1 in
      let st := set_labels st (p_labels st + 2) in
      tokmatch TOK_WHILE st (fetch st (fun st =>
      tokmatch TOK_PAROPEN st (fetch st (fun st =>
      st <~ rec N_condition (emit st (labref wstart)) ;;
      tokmatch TOK_PARCLOSE st (fetch st (fun st =>
      st <~ rec N_blockstat (emit st (i1 "jumpz" (labref wend))) ;;
      pok (emit (emit st (i1 "jump" (labref wstart))) (labref wend))))))))
  (* parse_conditionlist, 798-811; the number of arguments is the first component of the info *)
  | N_condlist =>
      if tok_eqb (ty st) TOK_PARCLOSE then Ok (Some (st, (0, false)))
      else st <~ rec N_condition st ;; rec (N_condargs 1) st
  | N_condargs n =>
      if tok_eqb (ty st) TOK_LISTSEP then fetch st (fun st => st <~ rec N_condition st ;; rec (N_condargs (n + 1)) st)
      else Ok (Some (st, (n, false)))
  (* parse_condition, 813-830; op has room for 4 characters *)
  | N_condition =>
      if tok_eqb (ty st) TOK_LNOT then
        fetch st (fun st => st <~ rec N_condition st ;; pok (emit st (i0 "lnot")))
      else st <~ rec N_comparison st ;; rec N_condloop st
  | N_condloop => op_loop TOK_LANDOR N_comparison N_condloop (fun v => Some (TAB :: 108 :: v)) st
  (* parse_comparison, 832-849 *)
  | N_comparison =>
      st <~ rec N_expression st ;;
      if tok_eqb (ty st) TOK_CMP then
        let v := t_value (p_tok st) in
        fetch st (fun st =>
        st <~ rec N_expression st ;;
        match cmp_name v with Some n => pok (emit st (i0 n)) | None => UB end)
      else pok st
  (* parse_expression, 854-943 *)
  | N_expression =>
      if tok_eqb (ty st) TOK_BLOCKOPEN then
        fetch st (fun st =>
        if tok_eqb (ty st) TOK_DOT || tok_eqb (ty st) TOK_BLOCKCLOSE then
          let st := emit st (i0 "pusht") in
          if tok_eqb (ty st) TOK_DOT then
            let st := emit st (i0 "dup") in
            fetch st (fun st => table_key st (fun st => fetch st (fun st =>
            tokmatch TOK_ASSIGN st (fetch st (fun st =>
            st <~ rec N_expression st ;;
            rec N_tabloop (emit st (i0 "tput")))))))
          else rec N_tabloop st
        else perror_at st)
      else st <~ rec N_product st ;; rec N_addloop st
  (* the loop of 897-930 and the closing of the table; without an entry there is no comma *)
  | N_tabloop =>
      if tok_eqb (ty st) TOK_LISTSEP then
        let st := emit st (i0 "dup") in
        fetch st (fun st => tokmatch TOK_DOT st (fetch st (fun st =>
        table_key st (fun st => fetch st (fun st =>
        tokmatch TOK_ASSIGN st (fetch st (fun st =>
        st <~ rec N_expression st ;;
        rec N_tabloop (emit st (i0 "tput")))))))))
      else tokmatch TOK_BLOCKCLOSE st (fetch st pok)
  | N_addloop =>
      op_loop TOK_ADDSUB N_product N_addloop
        (fun v => if first_is v 43 then Some (i0 "add") else if first_is v 45 then Some (i0 "sub") else None) st
  (* parse_product, 945-959 *)
  | N_product => st <~ rec N_modulo st ;; rec N_mulloop st
  | N_mulloop =>
      op_loop TOK_MULDIV N_modulo N_mulloop
        (fun v => if first_is v 42 then Some (i0 "mul") else if first_is v 47 then Some (i0 "div") else None) st
  (* parse_modulo, 961-969 *)
  | N_modulo => st <~ rec N_power st ;; rec N_modloop st
  | N_modloop => op_loop TOK_MOD N_power N_modloop (fun _ => Some (i0 "mod")) st
  (* parse_power, parse_powerrest, 971-982 *)
  | N_power => st <~ rec N_bitshift st ;; rec N_powerrest st
  | N_powerrest =>
      if tok_eqb (ty st) TOK_POW then fetch st (fun st => st <~ rec N_power st ;; pok (emit st (i0 "pow")))
      else pok st
  (* parse_bitshift, 984-996 *)
  | N_bitshift => st <~ rec N_bitandor st ;; rec N_shiftloop st
  | N_shiftloop =>
      op_loop TOK_LRSHIFT N_bitandor N_shiftloop
        (fun v => if strcmp (firstn 2 v) (bs "<<") =? 0 then Some (i0 "lshift")
                  else if strcmp (firstn 2 v) (bs ">>") =? 0 then Some (i0 "rshift") else None) st
  (* parse_bitwiseandor, 998-1009 *)
  | N_bitandor => st <~ rec N_bitnot st ;; rec N_bitloop st
  | N_bitloop =>
      if tok_eqb (ty st) TOK_BANDOR then
        let v := t_value (p_tok st) in
        fetch st (fun st =>
        st <~ rec N_bitnot st ;;
        if first_is v 38 then rec N_bitloop (emit st (i0 "band"))
        else if first_is v 124 then rec N_bitloop (emit st (i0 "bor"))
        else perror)
      else pok st
  (* parse_bitwisenot, 1011-1020 *)
  | N_bitnot =>
      if tok_eqb (ty st) TOK_BNOT then fetch st (fun st => st <~ rec N_bitnot st ;; pok (emit st (i0 "bnot")))
      else rec N_operand st
  (* parse_operand, 1022-1088 *)
  | N_operand =>
      match ty st with
      | TOK_FUN => rec N_lambda (emit st (i1 "pushl" (labref (p_labels st))))
      | TOK_NIL => fetch (emit st (i0 "pushnil")) pok
      | TOK_CONST => fetch (emit st (push_const [] (t_value (p_tok st)))) pok
      | TOK_STRING =>
          let '(d, p) := string_add (p_strs st) (t_value (p_tok st)) in
          fetch (emit (set_strs st d) (i1 "pushs" (print_u p))) pok
      | TOK_PAROPEN =>
          fetch st (fun st => st <~ rec N_condition st ;; tokmatch TOK_PARCLOSE st (fetch st pok))
      | TOK_ADDSUB =>
          let v := t_value (p_tok st) in
          fetch st (fun st =>
          if tok_eqb (ty st) TOK_CONST then fetch (emit st (push_const (firstn 1 v) (t_value (p_tok st)))) pok
          else st <~ rec N_power st ;; pok (if first_is v 45 then emit st (i0 "unm") else st))
      | _ => rec (N_idref false) st
      end
  (* parse_command, 1093-1156 *)
  | N_command =>
      if tok_eqb (ty st) TOK_RETURN then
        fetch st (fun st =>
        match ty st with
        | TOK_STATEND | TOK_BLOCKCLOSE => pok (emit st (i0 "ret0"))
        | _ => st <~ rec N_condition st ;; pok (emit st (i0 "ret1"))
        end)
      else
        '[st; i] <~ rec (N_idref true) st ;;
        if tok_eqb (ty st) TOK_ASSIGN then
          if fst i =? TYPE_CLOSURE then perror_at st
          else
            let st := if snd i then emit st (i1 "pushs" (print_d (fst i))) else st in
            fetch st (fun st =>
            st <~ rec N_expression st ;;
            pok (if snd i then emit st (i0 "gstore")
                 else if 0 <=? fst i then emit st (i1 "lstore" (print_d (fst i)))
                 else if fst i =? TYPE_TABLE then emit st (i0 "tput")
                 else st))
        else if fst i =? TYPE_CLOSURE then pok (emit st (i0 "pop"))
        else perror_at st
  (* parse_idlist, 1161-1192 *)
  | N_idlist =>
      if tok_eqb (ty st) TOK_PARCLOSE then pok st
      else tokmatch TOK_ID st (fetch (add_param st) (rec N_idloop))
  | N_idloop =>
      if tok_eqb (ty st) TOK_LISTSEP then
        fetch st (fun st => tokmatch TOK_ID st (fetch (add_param st) (rec N_idloop)))
      else pok st
  (* parse_idref, 1219-1311 *)
  | N_idref lvalue =>
      tokmatch TOK_ID st (
      let name := t_value (p_tok st) in
      let st := match sym_lookup name (p_symst st) with None => sym_add st name SCOPE_GLOBAL | Some _ => st end in
      match sym_lookup name (p_symst st) with
      | None => UB
      | Some s =>
          fetch st (fun st => rec (N_idrefloop lvalue (p_code st) (sy_pos s) (sy_pos s) (sy_global s)) (set_code st []))
      end)
  | N_idrefloop lvalue pre pos info global =>
      let load (st : pst) : pst :=
        load_var (if (global || (0 <=? info)) && tok_eqb (ty st) TOK_PAROPEN then emit st (i0 "pushnil") else st) pos info global in
      match ty st with
      | TOK_DOT =>
          fetch (load st) (fun st =>
          tokmatch TOK_ID st (
          let '(d, p) := string_add (p_strs st) (t_value (p_tok st)) in
          fetch (set_strs st d) (fun st =>
          let st := if tok_eqb (ty st) TOK_PAROPEN then emit st (i0 "dup") else st in
          rec (N_idrefloop lvalue pre pos TYPE_TABLE false) (emit st (i1 "pushs" (print_u p))))))
      | TOK_IDXOPEN =>
          fetch (load st) (fun st =>
          let pre2 := p_code st in
          st <~ rec N_expression (set_code st []) ;;
          tokmatch TOK_IDXCLOSE st (fetch st (fun st =>
          let pre2 := if tok_eqb (ty st) TOK_PAROPEN then pre2 ++ code_line (p_tok st) (i0 "dup") else pre2 in
          rec (N_idrefloop lvalue pre pos TYPE_TABLE false) (set_code st (pre2 ++ p_code st)))))
      | TOK_PAROPEN =>
          fetch (load st) (fun st =>
          '[st; i] <~ rec N_condlist st ;;
          tokmatch TOK_PARCLOSE st (fetch st (fun st =>
          let pre := if tok_eqb (ty st) TOK_PAROPEN then pre ++ code_line (p_tok st) (i0 "pushnil") else pre in
          rec (N_idrefloop lvalue pre pos TYPE_CLOSURE false) (emit st (i1 "pushi" (print_d (fst i)))))))
      | _ =>
          let st := if negb lvalue || (info =? TYPE_CLOSURE) then load_var st info info global else st in
          Ok (Some (set_code st (pre ++ p_code st), (info, global)))
      end
  (* parse_lambda, 1316-1352 *)
  | N_lambda =>
      tokmatch TOK_FUN st (fetch st (fun st =>
      let i := length (p_chunks st) in
      let old := p_code st in
      let st := chunk_push st None in
      tokmatch TOK_PAROPEN st (fetch st (fun st =>
      let st := if zlen (p_symst st) =? 1 then add_self (symt_push st) else symt_clone st in
      st <~ rec N_idlist st ;;
      tokmatch TOK_PARCLOSE st (fetch st (fun st =>
      st <~ rec (N_block false) st ;;
      pok (chunk_pop (symt_pop (emit st (i0 "ret0"))) i old)))))))
  end.
End Body.

Fixpoint parse (fuel : nat) (x : nt) (st : pst) : pres :=
  match fuel with
  | O => Hang
  | S n => body (parse n) x st
  end.

(** ** The whole file *)
(** buzzparser_new, 1357-1420: the strings of the optional symbol file get the first positions.
    Lines of that file longer than 1022 characters (which fgets splits) are not modelled. *)
Definition strs_new (syms : list str) : pdict str Z := fold_left (fun d s => fst (string_add d s)) syms (pnew 100).
(** parse_script, 400-420.  [toks]: what the lexer delivers before the end-of-file token. *)
Definition parse_script (fuel : nat) (syms : list str) (toks : list token) (more : bool) : res (option pst) :=
  let '(t, r) := next_tok toks in
  let st := mkP t r more 0 (strs_new syms) [] [] [] in
  if tok_eqb (ty st) TOK_EOF then Ok (Some st)
  else
    let st := chunk_push (symt_push st) None in
    match parse fuel N_statlist st with
    | Ok (Some (st, _)) =>
        let st := emit (emit st (NL :: bs "@__exitpoint")) (i0 "done") in
        Ok (Some (chunk_pop st 0 []))
    | Ok None => Ok None
    | Abort => Abort | UB => UB | Hang => Hang
    end.

(** The strings by increasing position (buzzdarray_sort with string_cmp, 47-51 and 1455-1457).  The
    positions are different, so that the order is determined, when there are at most 65536 strings. *)
Fixpoint insert_pos (e : str * Z) (l : list (str * Z)) : list (str * Z) :=
  match l with
  | [] => [e]
  | f :: r => if snd e <=? snd f then e :: l else f :: insert_pos e r
  end.
Definition sort_pos (l : list (str * Z)) : list (str * Z) := fold_right insert_pos [] l.

(** chunk_register, 280-291. *)
Definition chunk_register (c : chunk) : res (list Z) :=
  match c_sym c with
  | None => Ok []
  | Some x =>
      if cs_alive x then
        let g := sy_global (cs_sym x) in
        Ok ((if g then i1 "pushs" (print_d (sy_pos (cs_sym x))) ++ [NL] else []) ++
            i1 "pushcn" (labref (c_label c)) ++ [NL] ++
            (if g then i0 "gstore" ++ [NL] else i1 "lstore" (print_d (sy_pos (cs_sym x))) ++ [NL]))
      else UB
  end.
Fixpoint registers (l : list chunk) : res (list Z) :=
  match l with
  | [] => Ok []
  | c :: r => a <- chunk_register c ;; b <- registers r ;; Ok (a ++ b)
  end.
(** chunk_print, 293-301. *)
Definition chunk_print (c : chunk) : list Z := NL :: labref (c_label c) ++ [NL] ++ c_code c.

(** buzzparser_parse, 1444-1472: the text of the assembly file. *)
Definition write_asm (st : pst) : res (list Z) :=
  r <- registers (p_chunks st) ;;
  Ok (33 :: print_u (psize (p_strs st)) ++ [NL] ++
      concat (map (fun e => 39 :: fst e ++ [NL]) (sort_pos (pentries (p_strs st)))) ++ [NL] ++
      r ++ i0 "nop" ++ [NL] ++ concat (map chunk_print (p_chunks st))).
Definition compile (fuel : nat) (syms : list str) (toks : list token) (more : bool) : res (option (list Z)) :=
  p <- parse_script fuel syms toks more ;;
  match p with
  | None => Ok None
  | Some st => t <- write_asm st ;; Ok (Some t)
  end.
(** bzzparse on a file: the lexer and the parser (buzzparse.c 9-18).  [None]: an error was reported. *)
Definition bzzparse (open : list Z -> option (list Z * list Z)) (fuel : nat) (syms : list str) (name : list Z)
  : res (option (list Z)) :=
  match lex_new open name with
  | None => Ok None
  | Some lx =>
      '(ts, lx2) <- all_tokens open fuel lx ;;
      compile fuel syms ts (match lx2 with [] => false | _ => true end)
  end.
