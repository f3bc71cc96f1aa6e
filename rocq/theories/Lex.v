(** Model of the lexer, src/buzz/buzzlex.c.

    A file is the list of its bytes.  Opening a file (with the include path and realpath()) is an
    argument: [open name] is the absolute path and the contents, or nothing.  Allocation succeeds.
    isalpha(), isdigit(), isalnum() are those of the C locale; they get a plain char, and are
    taken to be false for bytes above 127, as in glibc.  Error messages are not modelled. *)
From Coq Require Import String.
From Verif Require Import Base Dict Text.
Local Open Scope Z_scope. Local Open Scope list_scope.

(** buzztok_type_e, buzzlex.h 15-48. *)
Inductive toktype :=
| TOK_ID | TOK_CONST | TOK_STRING | TOK_VAR | TOK_NIL | TOK_IF | TOK_ELSE | TOK_FUN | TOK_RETURN | TOK_FOR
| TOK_WHILE | TOK_LANDOR | TOK_LNOT | TOK_ADDSUB | TOK_MULDIV | TOK_MOD | TOK_POW | TOK_LRSHIFT | TOK_BANDOR
| TOK_BNOT | TOK_BLOCKOPEN | TOK_BLOCKCLOSE | TOK_PAROPEN | TOK_PARCLOSE | TOK_IDXOPEN | TOK_IDXCLOSE
| TOK_STATEND | TOK_LISTSEP | TOK_ASSIGN | TOK_DOT | TOK_CMP | TOK_EOF.

(** struct buzztok_s, buzzlex.h 54-65.  A value that is NULL in C is empty here. *)
Record token := mkTok { t_type : toktype; t_value : list Z; t_line : Z; t_col : Z; t_file : list Z }.

(** struct buzzlex_file_s, buzzlex.h 71-84: [lf_rest] are the characters from cur_c to the end of the
    buffer (buf_size); the buffer goes on with one '\0'. *)
Record lexfile := mkLf { lf_name : list Z; lf_line : Z; lf_col : Z; lf_rest : list Z }.
(** buzzlex_t: the stack of files, the one being read first. *)
Definition lexer : Type := list lexfile.

(** buzzlex_isspace, buzzlex_isid, buzzlex_isarithlogic, buzzlex_isquote, buzzlex_isnumber,
    buzzlex.c 113-133. *)
Definition lex_isspace (c : Z) : bool := (c =? 32) || (c =? 9) || (c =? 13).
Definition isalpha (c : Z) : bool := ((65 <=? c) && (c <=? 90)) || ((97 <=? c) && (c <=? 122)).
Definition isid (c : Z) : bool := isalpha c || isdigit c || (c =? 95).
Definition isquote (c : Z) : bool := (c =? 39) || (c =? 34).
Definition isnumber (c : Z) : bool := isdigit c || (c =? 46).
Definition BSL : Z := 92.

(** buzzlex_newstring, buzzlex.c 138-176.  [s] is the buffer from the first character of the string on,
    with its final '\0'; reading beyond it is undefined.  The loop writes [len] characters, reading
    two of them for an escape sequence. *)
Definition escaped (c : Z) : Z := if c =? 110 (* n *) then NL else if c =? 116 (* t *) then TAB else c.
Fixpoint newstring (len : nat) (s : list Z) : res (list Z) :=
  match len with
  | O => Ok []
  | S n =>
      match s with
      | [] => UB
      | c :: r =>
          if c =? BSL then
            match r with
            | [] => UB
            | d :: r1 => t <- newstring n r1 ;; Ok (escaped d :: t)
            end
          else t <- newstring n r ;; Ok (c :: t)
      end
  end.
(** The token's value is a C string: it ends at the first '\0'. *)

(** The scan for the closing quote, buzzlex.c 563-574: how many characters are skipped and what
    follows them. *)
Fixpoint find_quote (q last1 last2 : Z) (s : list Z) : list Z * list Z :=
  match s with
  | [] => ([], [])
  | c :: r =>
      if negb (c =? q) || ((last1 =? BSL) && negb (last2 =? BSL))
      then let '(a, b) := find_quote q c last1 r in (c :: a, b)
      else ([], s)
  end.

(** checkkeyword, buzzlex.c 424-434, in that order. *)
Definition keywords : list (list Z * toktype) :=
  [ (bs "var", TOK_VAR); (bs "if", TOK_IF); (bs "else", TOK_ELSE); (bs "function", TOK_FUN);
    (bs "return", TOK_RETURN); (bs "for", TOK_FOR); (bs "while", TOK_WHILE); (bs "and", TOK_LANDOR);
    (bs "or", TOK_LANDOR); (bs "not", TOK_LNOT); (bs "nil", TOK_NIL) ].
Definition keyword (s : list Z) : option toktype :=
  match find (fun e => strcmp s (fst e) =? 0) keywords with Some e => Some (snd e) | None => None end.

(** Advancing by the characters [a], buzzlex.c 222 (nextchar). *)
Definition advance (f : lexfile) (a rest : list Z) : lexfile := mkLf (lf_name f) (lf_line f) (lf_col f + zlen a) rest.
Definition newline (f : lexfile) (rest : list Z) : lexfile := mkLf (lf_name f) (lf_line f + 1) 0 rest.

(** The 1-character tokens, buzzlex.c 390-398. *)
Definition single (c : Z) : option toktype :=
  if c =? 59 (* ; *) then Some TOK_STATEND
  else if c =? 123 (* { *) then Some TOK_BLOCKOPEN
  else if c =? 125 (* } *) then Some TOK_BLOCKCLOSE
  else if c =? 40 (* ( *) then Some TOK_PAROPEN
  else if c =? 41 (* ) *) then Some TOK_PARCLOSE
  else if c =? 91 (* [ *) then Some TOK_IDXOPEN
  else if c =? 93 (* ] *) then Some TOK_IDXCLOSE
  else if c =? 44 (* , *) then Some TOK_LISTSEP
  else if c =? 46 (* . *) then Some TOK_DOT
  else None.
(** The arithmetic operators, buzzlex.c 517-558. *)
Definition arith_type (c : Z) : option toktype :=
  if (c =? 43) || (c =? 45) then Some TOK_ADDSUB
  else if (c =? 42) || (c =? 47) then Some TOK_MULDIV
  else if c =? 37 then Some TOK_MOD
  else if c =? 94 then Some TOK_POW
  else if (c =? 38) || (c =? 124) then Some TOK_BANDOR
  else None.

(** eoftok, buzzlex.c 233-238: buzzlex_newtok (184-201) adds 1 to the column. *)
Definition eoftok : token := mkTok TOK_EOF [] 0 1 [].

(** From line 373 on: the token starting with [c], the first of the remaining characters; [r] are the
    characters after it.  The column given to buzzlex_newtok is cur_col - 1 (wrapping around),
    which adds 1.  After an error the result is an end-of-file token. *)
Definition lex_token (f : lexfile) (c : Z) (r : list Z) : res (token * lexfile) :=
  let tok ty v := mkTok ty v (lf_line f) (lf_col f) (lf_name f) in
  let f1 := advance f [c] r in
  if c =? NL then Ok (tok TOK_STATEND [], newline f r)
  else match single c with
  | Some ty => Ok (tok ty [], f1)
  | None =>
      if isdigit c then
        let a := take_while isnumber r in
        Ok (tok TOK_CONST (c :: a), advance f (c :: a) (drop_while isnumber r))
      else if isalpha c then
        let a := take_while isid r in
        let v := c :: a in
        Ok (tok (match keyword v with Some ty => ty | None => TOK_ID end) v, advance f v (drop_while isid r))
      else if c =? 61 (* = *) then
        match r with
        | d :: r1 => if d =? 61 then Ok (tok TOK_CMP (bs "=="), advance f [c; d] r1) else Ok (tok TOK_ASSIGN [], f1)
        | [] => Ok (tok TOK_ASSIGN [], f1)
        end
      else if c =? 33 (* ! *) then
        match r with
        | d :: r1 => if d =? 61 then Ok (tok TOK_CMP (bs "!="), advance f [c; d] r1) else Ok (tok TOK_BNOT [], f1)
        | [] => Ok (tok TOK_BNOT [], f1)
        end
      else if (c =? 60) || (c =? 62) (* < > *) then
        match r with
        | d :: r1 =>
            if d =? c then Ok (tok TOK_LRSHIFT [c; d], advance f [c; d] r1)
            else if d =? 61 then Ok (tok TOK_CMP [c; d], advance f [c; d] r1)
            else Ok (tok TOK_CMP [c], f1)
        | [] => Ok (tok TOK_CMP [c], f1)
        end
      else match arith_type c with
      | Some ty => Ok (tok ty [c], f1)
      | None =>
          if isquote c then
            let '(a, b) := find_quote c 0 0 r in
            match b with
            | [] => Ok (eoftok, advance f (c :: a) [])
            | q :: b1 => v <- newstring (length a) (r ++ [0]) ;;
                         Ok (tok TOK_STRING (cstr v), advance f (c :: a ++ [q]) b1)
            end
          else Ok (eoftok, f1)
      end
  end.

Definition INCLUDE : list Z := bs "include".
(** strncmp(s, "include", 7) == 0, and what follows. *)
Fixpoint after_prefix (p s : list Z) : option (list Z) :=
  match p, s with
  | [], _ => Some s
  | a :: p1, b :: s1 => if a =? b then after_prefix p1 s1 else None
  | _, [] => None
  end.

Section Lex.
(** buzzlex_file_new, buzzlex.c 24-97: absolute path and contents of a file. *)
Variable open : list Z -> option (list Z * list Z).

(** The structure made for a file: a newline is added at the end. *)
Definition file_new (name : list Z) : option lexfile :=
  match open name with
  | None => None
  | Some (path, text) => Some (mkLf path 1 0 (text ++ [NL]))
  end.
(** buzzlex_new, buzzlex.c 206-217. *)
Definition lex_new (name : list Z) : option lexer :=
  match file_new name with None => None | Some f => Some [f] end.

(** File inclusion, buzzlex.c 311-363, from the character after "include" on.  [None]: a syntax error,
    with the state of the file.  Otherwise the file after the closing quote and the name. *)
Definition include_name (f : lexfile) : lexfile * option (list Z) :=
  let sp := take_while lex_isspace (lf_rest f) in
  let f1 := advance f sp (drop_while lex_isspace (lf_rest f)) in
  match lf_rest f1 with
  | q :: r =>
      if isquote q then
        let stop := fun c => negb ((c =? q) || (c =? NL)) in
        let name := take_while stop r in
        let f2 := advance f1 (q :: name) (drop_while stop r) in
        match lf_rest f2 with
        | d :: r1 => if d =? NL then (f2, None) else (advance f2 [d] r1, Some (cstr name))
        | [] => (f2, None)
        end
      else (f1, None)
  | [] => (f1, None)
  end.

(** buzzlex_nexttok, buzzlex.c 263-602.  One unit of fuel per turn of the loops of lines 265-370.  With no
    file left, buzzlex_getfile() reads before the array. *)
Fixpoint nexttok (fuel : nat) (lx : lexer) : res (token * lexer) :=
  match fuel with
  | O => Hang
  | S n =>
      match lx with
      | [] => UB
      | f :: fs =>
          let sp := take_while lex_isspace (lf_rest f) in
          let f1 := advance f sp (drop_while lex_isspace (lf_rest f)) in
          match lf_rest f1 with
          | [] => match fs with [] => Ok (eoftok, []) | _ => nexttok n fs end
          | c :: r =>
              if c =? 35 (* # *) then
                match drop_while (fun c => negb (c =? NL)) r with
                | [] => match fs with [] => Ok (eoftok, []) | _ => nexttok n fs end
                | _ :: r1 => nexttok n (newline f1 r1 :: fs)
                end
              else match after_prefix INCLUDE (c :: r) with
              | Some r1 =>
                  let '(f2, name) := include_name (advance f1 INCLUDE r1) in
                  match name with
                  | None => Ok (eoftok, f2 :: fs)
                  | Some nm =>
                      match file_new nm with
                      | None => Ok (eoftok, f2 :: fs)
                      | Some g =>
                          if existsb (fun h => strcmp (lf_name h) (lf_name g) =? 0) (f2 :: fs)
                          then nexttok n (f2 :: fs)
                          else nexttok n (g :: f2 :: fs)
                      end
                  end
              | None => '(t, f2) <- lex_token f1 c r ;; Ok (t, f2 :: fs)
              end
          end
      end
  end.

(** The tokens a caller gets by calling buzzlex_nexttok() until it returns an end-of-file token, and the
    state after that.  [fuel] bounds both the calls and the work of each. *)
Fixpoint all_tokens (fuel : nat) (lx : lexer) : res (list token * lexer) :=
  match fuel with
  | O => Hang
  | S n =>
      '(t, lx1) <- nexttok fuel lx ;;
      match t_type t with
      | TOK_EOF => Ok ([], lx1)
      | _ => '(ts, lx2) <- all_tokens n lx1 ;; Ok (t :: ts, lx2)
      end
  end.
End Lex.
