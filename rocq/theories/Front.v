(** A reader of scripts: from the text of a file to the abstract syntax of the program, for examples and for scripts
    of the Buzz library.  It is not a model of code in /repo (that is Lex.v and Parser.v); it is proved sound for the
    specifications of the lexer (LexSpec.v) and of the language (Source.v). *)
From Coq Require Import String.
From Verif Require Import Base Strman Obj Text Lex LexSpec Asm AsmSpec Source CompileSpec.
Local Open Scope Z_scope. Local Open Scope list_scope.

(** ** Tokens *)
Definition toktype_eq (a b : toktype) : {a = b} + {a <> b}. Proof. decide equality. Defined.
Definition tt_eqb (a b : toktype) : bool := if toktype_eq a b then true else false.
Definition is (ty : toktype) (t : token) : bool := tt_eqb (t_type t) ty.
Definition mem (x : list Z) (l : list (list Z)) : bool := existsb (fun y => if list_eq_dec Z.eq_dec y x then true else false) l.
Definition blankb (c : Z) : bool := (c =? 32) || (c =? 9) || (c =? 13).
Definition includes (w : list Z) : bool := if list_eq_dec Z.eq_dec (firstn 7 w) (bs "include") then true else false.

(** The pieces of a text: not proved to be anything. *)
Definition find_symbol (txt : list Z) : option (list Z * toktype * list Z) :=
  find (fun e => match e with (s, _, _) => if list_eq_dec Z.eq_dec s txt then true else false end) symbols.
Fixpoint span (p : Z -> bool) (l : list Z) : list Z * list Z :=
  match l with [] => ([], []) | c :: r => if p c then let '(a, b) := span p r in (c :: a, b) else ([], l) end.
Fixpoint pieces (n : nat) (l : list Z) : list piece :=
  match n with
  | O => []
  | S n =>
      match l with
      | [] => []
      | c :: r =>
          if blankb c then Blank c :: pieces n r
          else if c =? 35 then let '(a, b) := span (fun d => negb (d =? NL)) r in Comment a :: pieces n (tl b)
          else if (c =? 39) || (c =? 34) then let '(a, b) := span (fun d => negb (d =? c)) r in Token TOK_STRING a (c :: a ++ [c]) :: pieces n (tl b)
          else if letter c then
            let '(a, b) := span word_char l in
            if list_eq_dec Z.eq_dec a (bs "include") then
              let '(sp, b1) := span blankb b in
              match b1 with
              | q :: b2 => let '(name, b3) := span (fun d => negb (d =? q)) b2 in Include sp q name :: pieces n (tl b3)
              | [] => []
              end
            else
              Token (match find (fun e => if list_eq_dec Z.eq_dec (fst e) a then true else false) reserved with Some (_, ty) => ty | None => TOK_ID end) a a :: pieces n b
          else if digit c then let '(a, b) := span number_char l in Token TOK_CONST a a :: pieces n b
          else
            match find_symbol (firstn 2 l) with
            | Some (s, ty, v) => Token ty v s :: pieces n (skipn (length s) l)
            | None => match find_symbol [c] with Some (s, ty, v) => Token ty v s :: pieces n r | None => [] end
            end
      end
  end.
Definition pieces_of (text : list Z) : list piece := pieces (S (length text)) (text ++ [NL]).

Definition spellsb (ty : toktype) (v txt : list Z) : bool :=
  existsb (fun e => match e with (s, y, w) => (if list_eq_dec Z.eq_dec s txt then true else false) && tt_eqb y ty && (if list_eq_dec Z.eq_dec w v then true else false) end) symbols
  || ((if list_eq_dec Z.eq_dec v txt then true else false) &&
      (existsb (fun e => (if list_eq_dec Z.eq_dec (fst e) txt then true else false) && tt_eqb (snd e) ty) reserved
       || match txt with
          | c :: r => (tt_eqb ty TOK_ID && letter c && forallb word_char r && negb (mem txt (map fst reserved)) && negb (includes txt))
                      || (tt_eqb ty TOK_CONST && digit c && forallb number_char r)
          | [] => false
          end))
  || match txt with
     | q :: r => tt_eqb ty TOK_STRING && ((q =? 39) || (q =? 34)) && (if list_eq_dec Z.eq_dec r (v ++ [q]) then true else false)
                 && forallb (fun c => negb (c =? q) && negb (c =? BSL) && negb (c =? NL) && negb (c =? 0)) v
     | [] => false
     end.

(** The position after a text. *)
Definition advance (pos : Z * Z) (txt : list Z) : Z * Z := fold_left (fun '(l, c) x => if x =? NL then (l + 1, 0) else (l, c + 1)) txt pos.
Section Check.
Variable open : list Z -> option (list Z * list Z).
Fixpoint check (n : nat) (files : list (list Z)) (path : list Z) (pos : Z * Z) (ps : list piece) : option (list token) :=
  match n with
  | O => None
  | S n =>
      match ps with
      | [] => Some []
      | Blank c :: ps => if blankb c then check n files path (advance pos [c]) ps else None
      | Comment t :: ps => if existsb (Z.eqb NL) t then None else check n files path (advance pos (piece_text (Comment t))) ps
      | Token ty v txt :: ps =>
          if spellsb ty v txt && match layout ps with d :: _ => negb (goes_on txt d) | [] => true end then
            match check n files path (advance pos txt) ps with Some ts => Some (mkTok ty v (fst pos) (snd pos) path :: ts) | None => None end
          else None
      | Include sp q name :: ps =>
          if forallb blankb sp && ((q =? 39) || (q =? 34)) && forallb (fun c => negb (c =? q) && negb (c =? NL) && negb (c =? 0)) name then
            match open name with
            | Some (path2, text2) =>
                if mem path2 files then check n files path (advance pos (piece_text (Include sp q name))) ps
                else
                  let ps2 := pieces_of text2 in
                  if list_eq_dec Z.eq_dec (text2 ++ [NL]) (layout ps2) then
                    match check n (path2 :: files) path2 (1, 0) ps2, check n files path (advance pos (piece_text (Include sp q name))) ps with
                    | Some ts2, Some ts => Some (ts2 ++ ts)
                    | _, _ => None
                    end
                  else None
            | None => None
            end
          else None
      end
  end.
End Check.
(** The tokens of the file [name], those of the files it includes among them. *)
Definition tokens_of (open : list Z -> option (list Z * list Z)) (n : nat) (path text : list Z) : option (list token) :=
  if list_eq_dec Z.eq_dec (text ++ [NL]) (layout (pieces_of text)) then check open n [path] path (1, 0) (pieces_of text) else None.

(** ** Programs *)
Notation "'let?' x ':=' e 'in' f" := (match e with Some x => f | None => None end) (at level 200, x pattern, e at level 100, f at level 200, right associativity).
Definition expect (ty : toktype) (ts : list token) : option (token * list token) :=
  match ts with t :: r => if is ty t then Some (t, r) else None | [] => None end.
Definition infix_of (t : token) : option binop :=
  option_map snd (find (fun e => match e with (ty, v, _) => is ty t && (if list_eq_dec Z.eq_dec v (t_value t) then true else false) end) infixes).
Definition left_assocb (lv : nat) : bool := existsb (Nat.eqb lv) [2; 5; 6; 7; 9; 10]%nat.
Definition operator (lv : nat) (ts : list token) : option (binop * list token) :=
  match ts with
  | t :: r => if Nat.eqb (oplevel (t_type t)) lv then let? b := infix_of t in Some (b, r) else None
  | [] => None
  end.
Fixpoint p_params (n : nat) (ts : list token) : option (list str * list token) :=
  match n with
  | O => None
  | S n =>
      match expect TOK_ID ts with
      | None => Some ([], ts)
      | Some (t, r) =>
          match expect TOK_LISTSEP r with
          | None => Some ([t_value t], r)
          | Some (_, r) => let? p := p_params n r in match p with ([], _) => None | (l, r) => Some (t_value t :: l, r) end
          end
      end
  end.
Fixpoint p_e (n : nat) (lv : nat) (ts : list token) {struct n} : option (expr * nat * list token) :=
  match n with
  | O => None
  | S n =>
      match lv with
      | 1%nat =>
          match expect TOK_LNOT ts with
          | Some (_, r) => let? (e, lim, r) := p_e n 1 r in Some (E_un U_not e, lim, r)
          | None => p_e n 2 ts
          end
      | 3%nat =>
          let? (e1, lim1, r) := p_e n 4 ts in
          match operator 3 r with
          | Some (b, r) => let? (e2, lim2, r) := p_e n 4 r in Some (E_bin b e1 e2, lim2, r)
          | None => Some (e1, lim1, r)
          end
      | 4%nat =>
          match expect TOK_BLOCKOPEN ts with
          | Some (_, r) =>
              match expect TOK_BLOCKCLOSE r with
              | Some (_, r) => Some (E_table F_nil, 13%nat, r)
              | None => let? (l, r) := p_fields n r in let? (_, r) := expect TOK_BLOCKCLOSE r in Some (E_table l, 13%nat, r)
              end
          | None => p_e n 5 ts
          end
      | 8%nat =>
          let? (e1, lim1, r) := p_e n 9 ts in
          match (if Nat.ltb 8 lim1 then operator 8 r else None) with
          | Some (b, r) => let? (e2, lim2, r) := p_e n 8 r in Some (E_bin b e1 e2, lim2, r)
          | None => Some (e1, lim1, r)
          end
      | 11%nat =>
          match expect TOK_BNOT ts with
          | Some (_, r) => let? (e, lim, r) := p_e n 11 r in Some (E_un U_bnot e, lim, r)
          | None => p_e n 12 ts
          end
      | 12%nat =>
          match ts with
          | t :: r =>
              match t_type t with
              | TOK_NIL => Some (E_nil, 13%nat, r)
              | TOK_CONST => Some (E_num (t_value t), 13%nat, r)
              | TOK_STRING => Some (E_str (t_value t), 13%nat, r)
              | TOK_ADDSUB =>
                  match expect TOK_CONST r with
                  | Some (c, r) =>
                      if existsb (fun s => if list_eq_dec Z.eq_dec (t_value t) s then true else false) [bs "+"; bs "-"] then Some (E_num (t_value t ++ t_value c), 13%nat, r) else None
                  | None =>
                      let? (e, lim, r) := p_e n 8 r in
                      if list_eq_dec Z.eq_dec (t_value t) (bs "-") then Some (E_un U_neg e, Nat.min lim 8, r)
                      else if list_eq_dec Z.eq_dec (t_value t) (bs "+") then Some (e, Nat.min lim 8, r) else None
                  end
              | TOK_PAROPEN => let? (e, _, r) := p_e n 1 r in let? (_, r) := expect TOK_PARCLOSE r in Some (e, 13%nat, r)
              | TOK_ID => let? (e, r) := p_ref n (E_var (t_value t)) r in Some (e, 13%nat, r)
              | TOK_FUN =>
                  let? (_, r) := expect TOK_PAROPEN r in let? (ps, r) := p_params n r in let? (_, r) := expect TOK_PARCLOSE r in
                  let? (_, r) := expect TOK_BLOCKOPEN r in let? (b, _, r) := p_block n r in let? (_, r) := expect TOK_BLOCKCLOSE r in
                  Some (E_fun (Z.of_nat (length ts)) ps b, 13%nat, r)
              | _ => None
              end
          | [] => None
          end
      | _ => if left_assocb lv then let? (e, lim, r) := p_e n (S lv) ts in p_chain n lv e lim r else None
      end
  end
with p_chain (n : nat) (lv : nat) (e : expr) (lim : nat) (ts : list token) {struct n} : option (expr * nat * list token) :=
  match n with
  | O => None
  | S n =>
      match (if Nat.ltb lv lim then operator lv ts else None) with
      | Some (b, r) => let? (e2, lim2, r) := p_e n (S lv) r in p_chain n lv (E_bin b e e2) lim2 r
      | None => Some (e, lim, ts)
      end
  end
with p_ref (n : nat) (e : expr) (ts : list token) {struct n} : option (expr * list token) :=
  match n with
  | O => None
  | S n =>
      match expect TOK_DOT ts with
      | Some (_, r) => let? (i, r) := expect TOK_ID r in p_ref n (E_get e (E_str (t_value i))) r
      | None =>
          match expect TOK_IDXOPEN ts with
          | Some (_, r) => let? (k, _, r) := p_e n 4 r in let? (_, r) := expect TOK_IDXCLOSE r in p_ref n (E_get e k) r
          | None =>
              match expect TOK_PAROPEN ts with
              | Some (_, r) =>
                  match expect TOK_PARCLOSE r with
                  | Some (_, r) => p_ref n (E_call e Es_nil) r
                  | None => let? (l, r) := p_args n r in let? (_, r) := expect TOK_PARCLOSE r in p_ref n (E_call e l) r
                  end
              | None => Some (e, ts)
              end
          end
      end
  end
with p_args (n : nat) (ts : list token) {struct n} : option (exprs * list token) :=
  match n with
  | O => None
  | S n =>
      let? (e, _, r) := p_e n 1 ts in
      match expect TOK_LISTSEP r with
      | Some (_, r) => let? (l, r) := p_args n r in Some (Es_cons e l, r)
      | None => Some (Es_cons e Es_nil, r)
      end
  end
with p_fields (n : nat) (ts : list token) {struct n} : option (fields * list token) :=
  match n with
  | O => None
  | S n =>
      let? (_, r) := expect TOK_DOT ts in
      let? (k, r) := match expect TOK_ID r with Some (t, r) => Some (E_str (t_value t), r) | None => let? (t, r) := expect TOK_CONST r in Some (E_num (t_value t), r) end in
      let? (_, r) := expect TOK_ASSIGN r in let? (e, _, r) := p_e n 4 r in
      match expect TOK_LISTSEP r with
      | Some (_, r) => let? (l, r) := p_fields n r in Some (F_cons k e l, r)
      | None => Some (F_cons k e F_nil, r)
      end
  end
with p_cmd (n : nat) (ts : list token) {struct n} : option (stat * list token) :=
  match n with
  | O => None
  | S n =>
      match expect TOK_RETURN ts with
      | Some (_, r) => let? (e, _, r) := p_e n 1 r in Some (S_returnval e, r)
      | None =>
          let? (x, r) := expect TOK_ID ts in
          match expect TOK_ASSIGN r with
          | Some (_, r) => let? (e, _, r) := p_e n 4 r in Some (S_assign (t_value x) e, r)
          | None =>
              let? (e, r) := p_ref n (E_var (t_value x)) r in
              match e with
              | E_get e k => let? (_, r) := expect TOK_ASSIGN r in let? (v, _, r) := p_e n 4 r in Some (S_put e k v, r)
              | E_call f l => Some (S_call f l, r)
              | _ => None
              end
          end
      end
  end
with p_stat (n : nat) (ts : list token) {struct n} : option (stat * nat * list token) :=
  match n with
  | O => None
  | S n =>
      match ts with
      | [] => None
      | t :: r =>
          match t_type t with
          | TOK_VAR =>
              let? (x, r) := expect TOK_ID r in
              match expect TOK_ASSIGN r with
              | Some (_, r) => let? (e, _, r) := p_e n 4 r in Some (S_varinit (t_value x) e, 0%nat, r)
              | None => Some (S_var (t_value x), 0%nat, r)
              end
          | TOK_RETURN =>
              match expect TOK_BLOCKCLOSE r with
              | Some _ => Some (S_return, 2%nat, r)
              | None => let? (s, r) := p_cmd n ts in Some (s, 0%nat, r)
              end
          | TOK_IF =>
              let? (_, r) := expect TOK_PAROPEN r in let? (c, _, r) := p_e n 1 r in let? (_, r) := expect TOK_PARCLOSE r in
              let? (b, f, r) := p_body n r in
              match (if Nat.eqb f 0 then expect TOK_ELSE r else None) with
              | Some (_, r) => let? (b2, f2, r) := p_body n r in Some (S_ifelse c b b2, f2, r)
              | None => Some (S_if c b, Nat.max f 1, r)
              end
          | TOK_WHILE =>
              let? (_, r) := expect TOK_PAROPEN r in let? (c, _, r) := p_e n 1 r in let? (_, r) := expect TOK_PARCLOSE r in
              let? (b, f, r) := p_body n r in Some (S_while c b, f, r)
          | TOK_FOR =>
              let? (_, r) := expect TOK_PAROPEN r in let? (i, r) := p_cmd n r in let? (_, r) := expect TOK_LISTSEP r in let? (c, _, r) := p_e n 1 r in
              let? (_, r) := expect TOK_LISTSEP r in let? (u, r) := p_cmd n r in let? (_, r) := expect TOK_PARCLOSE r in
              let? (b, f, r) := p_body n r in Some (S_for i c u b, f, r)
          | TOK_FUN =>
              let? (x, r) := expect TOK_ID r in let? (_, r) := expect TOK_PAROPEN r in let? (ps, r) := p_params n r in let? (_, r) := expect TOK_PARCLOSE r in
              let? (_, r) := expect TOK_BLOCKOPEN r in let? (b, _, r) := p_block n r in let? (_, r) := expect TOK_BLOCKCLOSE r in
              Some (S_fun (Z.of_nat (length ts)) (t_value x) ps b, 0%nat, r)
          | _ => let? (s, r) := p_cmd n ts in Some (s, 0%nat, r)
          end
      end
  end
with p_body (n : nat) (ts : list token) {struct n} : option (body * nat * list token) :=
  match n with
  | O => None
  | S n =>
      match expect TOK_BLOCKOPEN ts with
      | Some (_, r) => let? (b, _, r) := p_block n r in let? (_, r) := expect TOK_BLOCKCLOSE r in Some (Block b, 0%nat, r)
      | None => let? (s, f, r) := p_stat n ts in Some (Single s, f, r)
      end
  end
with p_block (n : nat) (ts : list token) {struct n} : option (stats * nat * list token) :=
  match n with
  | O => None
  | S n =>
      match expect TOK_BLOCKCLOSE ts with
      | Some _ => Some (Ss_nil, 0%nat, ts)
      | None => p_stats n ts
      end
  end
with p_stats (n : nat) (ts : list token) {struct n} : option (stats * nat * list token) :=
  match n with
  | O => None
  | S n =>
      let? (s, f, r) := p_stat n ts in
      if (match r with [] => true | t :: _ => is TOK_BLOCKCLOSE t end) then Some (Ss_cons s Ss_nil, f, r)
      else if Nat.eqb f 2 then None else let? (l, f, r) := p_stats n r in Some (Ss_cons s l, f, r)
  end.
Definition program_of (n : nat) (ts : list token) : option stats :=
  match p_stats n (filter no_statend ts) with
  | Some (l, f, []) => if Nat.eqb f 2 then None else Some l
  | _ => None
  end.

(** The file [name] is a script the compiler can be given: the static rules, and the limits of C94 hold. *)
Definition plainb (p : list Z) : bool :=
  forallb (fun x => negb (x =? COMMA) && negb (x =? NL) && negb (x =? BAR) && negb (x =? 0)) p && match rev p with x :: _ => negb (isspace x) | [] => true end.
Definition small_token (t : token) : bool := (t_line t <? 2 ^ 63) && (t_col t <? 2 ^ 63) && plainb (t_file t).
Fixpoint distinct_ids (l : list Z) : bool := match l with [] => true | i :: r => negb (existsb (Z.eqb i) r) && distinct_ids r end.
Definition script_of (strtof : list Z -> option Z) (open : list Z -> option (list Z * list Z)) (n : nat) (name : list Z) : option stats :=
  let? (path, text) := open name in
  let? ts := tokens_of open n path text in
  if forallb small_token ts then
    let? l := program_of n ts in
    if ok_script strtof l && distinct_ids (map fn_id (functions l)) && (zlen (nodup (list_eq_dec Z.eq_dec) (words l)) <=? 65534) then Some l else None
  else None.
