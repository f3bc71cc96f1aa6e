(** Specification vocabulary for the lexer: how tokens are spelled and how a script is laid out. *)
From Coq Require Import String.
From Verif Require Import Base Text Lex.
Local Open Scope Z_scope. Local Open Scope list_scope.

(** ** Spelling *)
Definition letter (c : Z) : bool := ((65 <=? c) && (c <=? 90)) || ((97 <=? c) && (c <=? 122)).
Definition digit (c : Z) : bool := (48 <=? c) && (c <=? 57).
Definition word_char (c : Z) : bool := letter c || digit c || (c =? 95).
Definition number_char (c : Z) : bool := digit c || (c =? 46).
Definition QUOTES : list Z := [39; 34].

Definition reserved : list (list Z * toktype) :=
  [ (bs "var", TOK_VAR); (bs "nil", TOK_NIL); (bs "if", TOK_IF); (bs "else", TOK_ELSE); (bs "function", TOK_FUN);
    (bs "return", TOK_RETURN); (bs "for", TOK_FOR); (bs "while", TOK_WHILE); (bs "and", TOK_LANDOR);
    (bs "or", TOK_LANDOR); (bs "not", TOK_LNOT) ].
(** Text, kind and value of the other tokens. *)
Definition symbols : list (list Z * toktype * list Z) :=
  [ (bs "+", TOK_ADDSUB, bs "+"); (bs "-", TOK_ADDSUB, bs "-"); (bs "*", TOK_MULDIV, bs "*"); (bs "/", TOK_MULDIV, bs "/");
    (bs "%", TOK_MOD, bs "%"); (bs "^", TOK_POW, bs "^"); (bs "<<", TOK_LRSHIFT, bs "<<"); (bs ">>", TOK_LRSHIFT, bs ">>");
    (bs "&", TOK_BANDOR, bs "&"); (bs "|", TOK_BANDOR, bs "|"); (bs "!", TOK_BNOT, []);
    (bs "{", TOK_BLOCKOPEN, []); (bs "}", TOK_BLOCKCLOSE, []); (bs "(", TOK_PAROPEN, []); (bs ")", TOK_PARCLOSE, []);
    (bs "[", TOK_IDXOPEN, []); (bs "]", TOK_IDXCLOSE, []); (bs ";", TOK_STATEND, []); ([NL], TOK_STATEND, []);
    (bs ",", TOK_LISTSEP, []); (bs "=", TOK_ASSIGN, []); (bs ".", TOK_DOT, []);
    (bs "==", TOK_CMP, bs "=="); (bs "!=", TOK_CMP, bs "!="); (bs "<", TOK_CMP, bs "<"); (bs "<=", TOK_CMP, bs "<=");
    (bs ">", TOK_CMP, bs ">"); (bs ">=", TOK_CMP, bs ">=") ].

(** Text [txt] is a token of kind [ty] with value [v].  Two restrictions stand for refuted claims:
    identifiers that start with "include", and strings with backslashes or newlines. *)
Inductive spells : toktype -> list Z -> list Z -> Prop :=
| spells_id c r : letter c = true -> forallb word_char r = true -> ~ In (c :: r) (map fst reserved) ->
    (forall s, c :: r <> bs "include" ++ s) -> spells TOK_ID (c :: r) (c :: r)
| spells_word w ty : In (w, ty) reserved -> spells ty w w
| spells_const c r : digit c = true -> forallb number_char r = true -> spells TOK_CONST (c :: r) (c :: r)
| spells_string q v : In q QUOTES -> Forall (fun c => c <> q /\ c <> BSL /\ c <> NL /\ c <> 0) v ->
    spells TOK_STRING v (q :: v ++ [q])
| spells_symbol txt ty v : In (txt, ty, v) symbols -> spells ty v txt.

(** Character [d] after text [txt] would be part of the same token: the longest match wins. *)
Definition goes_on (txt : list Z) (d : Z) : bool :=
  match txt with
  | [] => false
  | c :: _ =>
      if letter c then word_char d
      else if digit c then number_char d
      else existsb (fun e => match e with (s, _, _) => if list_eq_dec Z.eq_dec s (txt ++ [d]) then true else false end) symbols
  end.

(** ** Layout *)
Definition blank (c : Z) : Prop := c = 32 \/ c = 9 \/ c = 13.
Inductive piece :=
| Blank (c : Z)
| Comment (t : list Z)                          (* up to and including the end of the line *)
| Token (ty : toktype) (v txt : list Z)
| Include (sp : list Z) (q : Z) (name : list Z).
Definition piece_text (p : piece) : list Z :=
  match p with
  | Blank c => [c]
  | Comment t => 35 :: t ++ [NL]
  | Token _ _ txt => txt
  | Include sp q name => bs "include" ++ sp ++ q :: name ++ [q]
  end.
Definition layout (ps : list piece) : list Z := concat (map piece_text ps).

(** Line and column of what follows [before]; lines are counted from 1, columns from 0. *)
Definition line_of (before : list Z) : Z := 1 + zlen (filter (Z.eqb NL) before).
Definition column_of (before : list Z) : Z := zlen (take_while (fun c => negb (c =? NL)) (rev before)).

(** [reads open files path before ps ts]: the file [path], of which [before] was read and [ps] is what
    is left, gives the tokens [ts]; [files]: the files being read, [path] among them.  A file that is
    being read is not included again. *)
Inductive reads (open : list Z -> option (list Z * list Z)) : list (list Z) -> list Z -> list Z -> list piece -> list token -> Prop :=
| reads_end files path before : reads open files path before [] []
| reads_blank files path before c ps ts : blank c ->
    reads open files path (before ++ [c]) ps ts -> reads open files path before (Blank c :: ps) ts
| reads_comment files path before t ps ts : ~ In NL t ->
    reads open files path (before ++ piece_text (Comment t)) ps ts -> reads open files path before (Comment t :: ps) ts
| reads_token files path before ty v txt ps ts : spells ty v txt ->
    match layout ps with d :: _ => goes_on txt d = false | [] => True end ->
    reads open files path (before ++ txt) ps ts ->
    reads open files path before (Token ty v txt :: ps) (mkTok ty v (line_of before) (column_of before) path :: ts)
| reads_include files path before sp q name path2 text2 ps2 ts2 ps ts :
    Forall blank sp -> In q QUOTES -> Forall (fun c => c <> q /\ c <> NL /\ c <> 0) name ->
    open name = Some (path2, text2) -> ~ In path2 files ->
    text2 ++ [NL] = layout ps2 -> reads open (path2 :: files) path2 [] ps2 ts2 ->
    reads open files path (before ++ piece_text (Include sp q name)) ps ts ->
    reads open files path before (Include sp q name :: ps) (ts2 ++ ts)
| reads_included files path before sp q name path2 text2 ps ts :
    Forall blank sp -> In q QUOTES -> Forall (fun c => c <> q /\ c <> NL /\ c <> 0) name ->
    open name = Some (path2, text2) -> In path2 files ->
    reads open files path (before ++ piece_text (Include sp q name)) ps ts ->
    reads open files path before (Include sp q name :: ps) ts.
