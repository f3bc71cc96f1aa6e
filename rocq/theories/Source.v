(** Specification: the Buzz language - abstract syntax, how a script spells it, the static rules, and the
    meaning of programs.  It covers global and local variables, all operators, table constructors and
    accesses, function definitions, lambdas, calls, if, while, for and return.  Not covered: inclusion
    (the tokens are those after inclusion), and calls with a number of arguments different from the number of
    parameters (no meaning is given to them).  What C functions do is an argument. *)
From Coq Require Import String.
From Verif Require Import Base Float Dict PDict Strman Obj Vm Text Lex.
Local Open Scope Z_scope. Local Open Scope list_scope.

(** * Abstract syntax *)
Inductive unop := U_neg | U_bnot | U_not.
Inductive binop :=
| B_and | B_or | B_eq | B_neq | B_lt | B_lte | B_gt | B_gte | B_add | B_sub | B_mul | B_div | B_mod | B_pow
| B_shl | B_shr | B_band | B_bor.

Inductive expr :=
| E_nil
| E_num (t : str)                                   (* a numeral, with its sign *)
| E_str (s : str)
| E_var (x : str)
| E_un (u : unop) (e : expr)
| E_bin (b : binop) (e1 e2 : expr)
| E_table (l : fields)
| E_get (e k : expr)                                (* e.name and e[k] *)
| E_call (f : expr) (args : exprs)
| E_fun (id : Z) (params : list str) (body : stats) (* a lambda; [id] names it *)
with exprs := Es_nil | Es_cons (e : expr) (l : exprs)
with fields := F_nil | F_cons (k e : expr) (l : fields)
with stat :=
| S_var (x : str)
| S_varinit (x : str) (e : expr)
| S_assign (x : str) (e : expr)
| S_put (e k v : expr)                              (* e.name = v and e[k] = v *)
| S_call (f : expr) (args : exprs)
| S_if (c : expr) (b : body)
| S_ifelse (c : expr) (b1 b2 : body)
| S_while (c : expr) (b : body)
| S_for (init : stat) (c : expr) (update : stat) (b : body)
| S_return
| S_returnval (e : expr)
| S_fun (id : Z) (name : str) (params : list str) (body : stats)
with body := Block (l : stats) | Single (s : stat)
with stats := Ss_nil | Ss_cons (s : stat) (l : stats).

(** * Concrete syntax, over the tokens of the lexer (without statement ends, which mean nothing)

    Binary operators, from the loosest to the tightest: and/or; comparisons (not associative); + and -;
    * and /; %; ^ (to the right); << and >>; & and |.  [not] applies to the whole condition that
    follows it, a sign to the power that follows it, ~ to an operand. *)
Definition infixes : list (toktype * list Z * binop) :=
  [ (TOK_LANDOR, bs "and", B_and); (TOK_LANDOR, bs "or", B_or);
    (TOK_CMP, bs "==", B_eq); (TOK_CMP, bs "!=", B_neq); (TOK_CMP, bs "<", B_lt); (TOK_CMP, bs "<=", B_lte);
    (TOK_CMP, bs ">", B_gt); (TOK_CMP, bs ">=", B_gte);
    (TOK_ADDSUB, bs "+", B_add); (TOK_ADDSUB, bs "-", B_sub);
    (TOK_MULDIV, bs "*", B_mul); (TOK_MULDIV, bs "/", B_div);
    (TOK_MOD, bs "%", B_mod); (TOK_POW, bs "^", B_pow);
    (TOK_LRSHIFT, bs "<<", B_shl); (TOK_LRSHIFT, bs ">>", B_shr);
    (TOK_BANDOR, bs "&", B_band); (TOK_BANDOR, bs "|", B_bor) ].
Definition infix (t : token) (b : binop) : Prop := In (t_type t, t_value t, b) infixes.

(** How tightly a token binds to what is on its left; 0: not at all. *)
Definition oplevel (t : toktype) : nat :=
  match t with
  | TOK_LANDOR => 2 | TOK_CMP => 3 | TOK_ADDSUB => 5 | TOK_MULDIV => 6 | TOK_MOD => 7 | TOK_POW => 8
  | TOK_LRSHIFT => 9 | TOK_BANDOR => 10 | TOK_DOT | TOK_IDXOPEN | TOK_PAROPEN => 12
  | _ => 0
  end%nat.
Definition left_assoc (lv : nat) : Prop := In lv [2; 5; 6; 7; 9; 10]%nat.
Definition sign_text (t : token) : Prop := t_value t = bs "+" \/ t_value t = bs "-".

(** The key of an entry of a table constructor; parameters. *)
Inductive spells_key : token -> expr -> Prop :=
| k_name t : t_type t = TOK_ID -> spells_key t (E_str (t_value t))
| k_num t : t_type t = TOK_CONST -> spells_key t (E_num (t_value t)).
Inductive spells_params : list token -> list str -> Prop :=
| p_none : spells_params [] []
| p_one t : t_type t = TOK_ID -> spells_params [t] [t_value t]
| p_more t s tr l : t_type t = TOK_ID -> t_type s = TOK_LISTSEP -> spells_params tr l -> l <> [] -> spells_params (t :: s :: tr) (t_value t :: l).

(** [spells lv lim ts e]: the tokens [ts] spell [e] at level [lv] - 1: condition, 2: and/or, 3:
    comparison, 4: expression, 5: sum, 6: product, 7: modulo, 8: power, 9: shift, 10: bitwise and/or,
    11: bitwise not, 12: operand.  Only an operator looser than [lim] can follow: an operand -x
    takes everything up to the end of the power that x starts. *)
Inductive spells : nat -> nat -> list token -> expr -> Prop :=
| g_chain lv lim1 lim2 ts1 o ts2 b e1 e2 :
    left_assoc lv -> spells lv lim1 ts1 e1 -> infix o b -> oplevel (t_type o) = lv -> (lv < lim1)%nat ->
    spells (S lv) lim2 ts2 e2 -> spells lv lim2 (ts1 ++ o :: ts2) (E_bin b e1 e2)
| g_cmp lim1 lim2 ts1 o ts2 b e1 e2 :
    spells 4 lim1 ts1 e1 -> infix o b -> oplevel (t_type o) = 3%nat -> spells 4 lim2 ts2 e2 ->
    spells 3 lim2 (ts1 ++ o :: ts2) (E_bin b e1 e2)
| g_pow lim1 lim2 ts1 o ts2 b e1 e2 :
    spells 9 lim1 ts1 e1 -> infix o b -> oplevel (t_type o) = 8%nat -> (8 < lim1)%nat -> spells 8 lim2 ts2 e2 ->
    spells 8 lim2 (ts1 ++ o :: ts2) (E_bin b e1 e2)
| g_up lv lim ts e : (1 <= lv < 12)%nat -> spells (S lv) lim ts e -> spells lv lim ts e
| g_not t lim ts e : t_type t = TOK_LNOT -> spells 1 lim ts e -> spells 1 lim (t :: ts) (E_un U_not e)
| g_bnot t lim ts e : t_type t = TOK_BNOT -> spells 11 lim ts e -> spells 11 lim (t :: ts) (E_un U_bnot e)
| g_table0 o c : t_type o = TOK_BLOCKOPEN -> t_type c = TOK_BLOCKCLOSE -> spells 4 13 [o; c] (E_table F_nil)
| g_table o ts l c :
    t_type o = TOK_BLOCKOPEN -> spells_fields ts l -> t_type c = TOK_BLOCKCLOSE -> spells 4 13 (o :: ts ++ [c]) (E_table l)
| g_nil t : t_type t = TOK_NIL -> spells 12 13 [t] E_nil
| g_num t : t_type t = TOK_CONST -> spells 12 13 [t] (E_num (t_value t))
| g_sign s t :
    t_type s = TOK_ADDSUB -> sign_text s -> t_type t = TOK_CONST -> spells 12 13 [s; t] (E_num (t_value s ++ t_value t))
| g_neg s lim t ts e :
    t_type s = TOK_ADDSUB -> t_value s = bs "-" -> t_type t <> TOK_CONST -> spells 8 lim (t :: ts) e ->
    spells 12 (Nat.min lim 8) (s :: t :: ts) (E_un U_neg e)
| g_pos s lim t ts e :
    t_type s = TOK_ADDSUB -> t_value s = bs "+" -> t_type t <> TOK_CONST -> spells 8 lim (t :: ts) e ->
    spells 12 (Nat.min lim 8) (s :: t :: ts) e
| g_str t : t_type t = TOK_STRING -> spells 12 13 [t] (E_str (t_value t))
| g_paren o lim ts c e :
    t_type o = TOK_PAROPEN -> spells 1 lim ts e -> t_type c = TOK_PARCLOSE -> spells 12 13 (o :: ts ++ [c]) e
| g_ref ts e : spells_ref ts e -> spells 12 13 ts e
| g_lambda f o tp ps c bo tb f' b bc id :
    t_type f = TOK_FUN -> t_type o = TOK_PAROPEN -> spells_params tp ps -> t_type c = TOK_PARCLOSE ->
    t_type bo = TOK_BLOCKOPEN -> spells_block tb f' b -> t_type bc = TOK_BLOCKCLOSE ->
    spells 12 13 (f :: o :: tp ++ c :: bo :: tb ++ [bc]) (E_fun id ps b)
(** Variables followed by accesses and calls. *)
with spells_ref : list token -> expr -> Prop :=
| r_var t : t_type t = TOK_ID -> spells_ref [t] (E_var (t_value t))
| r_dot ts e d i : spells_ref ts e -> t_type d = TOK_DOT -> t_type i = TOK_ID -> spells_ref (ts ++ [d; i]) (E_get e (E_str (t_value i)))
| r_idx ts e o lim tk k c :
    spells_ref ts e -> t_type o = TOK_IDXOPEN -> spells 4 lim tk k -> t_type c = TOK_IDXCLOSE -> spells_ref (ts ++ o :: tk ++ [c]) (E_get e k)
| r_call0 ts e o c :
    spells_ref ts e -> t_type o = TOK_PAROPEN -> t_type c = TOK_PARCLOSE -> spells_ref (ts ++ [o; c]) (E_call e Es_nil)
| r_call ts e o ta args c :
    spells_ref ts e -> t_type o = TOK_PAROPEN -> spells_args ta args -> t_type c = TOK_PARCLOSE ->
    spells_ref (ts ++ o :: ta ++ [c]) (E_call e args)
with spells_args : list token -> exprs -> Prop :=
| a_one lim ts e : spells 1 lim ts e -> spells_args ts (Es_cons e Es_nil)
| a_more lim ts e s tr l : spells 1 lim ts e -> t_type s = TOK_LISTSEP -> spells_args tr l -> spells_args (ts ++ s :: tr) (Es_cons e l)
with spells_fields : list token -> fields -> Prop :=
| f_one d tk k a lim ts e :
    t_type d = TOK_DOT -> spells_key tk k -> t_type a = TOK_ASSIGN -> spells 4 lim ts e -> spells_fields (d :: tk :: a :: ts) (F_cons k e F_nil)
| f_more d tk k a lim ts e s tr l :
    t_type d = TOK_DOT -> spells_key tk k -> t_type a = TOK_ASSIGN -> spells 4 lim ts e -> t_type s = TOK_LISTSEP -> spells_fields tr l ->
    spells_fields (d :: tk :: a :: ts ++ s :: tr) (F_cons k e l)
(** Statements; the flag tells what cannot follow: see [follow]. *)
with spells_cmd : list token -> stat -> Prop :=
| c_assign x a lim ts e : t_type x = TOK_ID -> t_type a = TOK_ASSIGN -> spells 4 lim ts e -> spells_cmd (x :: a :: ts) (S_assign (t_value x) e)
| c_put tr e k a lim ts v : spells_ref tr (E_get e k) -> t_type a = TOK_ASSIGN -> spells 4 lim ts v -> spells_cmd (tr ++ a :: ts) (S_put e k v)
| c_call ts f args : spells_ref ts (E_call f args) -> spells_cmd ts (S_call f args)
| c_return t lim ts e : t_type t = TOK_RETURN -> spells 1 lim ts e -> spells_cmd (t :: ts) (S_returnval e)
with spells_stat : list token -> nat -> stat -> Prop :=
| s_cmd ts s : spells_cmd ts s -> spells_stat ts 0 s
| s_var v x : t_type v = TOK_VAR -> t_type x = TOK_ID -> spells_stat [v; x] 0 (S_var (t_value x))
| s_varinit v x a lim ts e :
    t_type v = TOK_VAR -> t_type x = TOK_ID -> t_type a = TOK_ASSIGN -> spells 4 lim ts e -> spells_stat (v :: x :: a :: ts) 0 (S_varinit (t_value x) e)
| s_return t : t_type t = TOK_RETURN -> spells_stat [t] 2 S_return
| s_if i o lim tc c pc tb f b :
    t_type i = TOK_IF -> t_type o = TOK_PAROPEN -> spells 1 lim tc c -> t_type pc = TOK_PARCLOSE -> spells_body tb f b ->
    spells_stat (i :: o :: tc ++ pc :: tb) (Nat.max f 1) (S_if c b)
| s_ifelse i o lim tc c pc tb1 b1 el tb2 f b2 :
    t_type i = TOK_IF -> t_type o = TOK_PAROPEN -> spells 1 lim tc c -> t_type pc = TOK_PARCLOSE -> spells_body tb1 0 b1 ->
    t_type el = TOK_ELSE -> spells_body tb2 f b2 -> spells_stat (i :: o :: tc ++ pc :: tb1 ++ el :: tb2) f (S_ifelse c b1 b2)
| s_while w o lim tc c pc tb f b :
    t_type w = TOK_WHILE -> t_type o = TOK_PAROPEN -> spells 1 lim tc c -> t_type pc = TOK_PARCLOSE -> spells_body tb f b ->
    spells_stat (w :: o :: tc ++ pc :: tb) f (S_while c b)
| s_for w o ti i s1 lim tc c s2 tu u pc tb f b :
    t_type w = TOK_FOR -> t_type o = TOK_PAROPEN -> spells_cmd ti i -> t_type s1 = TOK_LISTSEP -> spells 1 lim tc c ->
    t_type s2 = TOK_LISTSEP -> spells_cmd tu u -> t_type pc = TOK_PARCLOSE -> spells_body tb f b ->
    spells_stat (w :: o :: ti ++ s1 :: tc ++ s2 :: tu ++ pc :: tb) f (S_for i c u b)
| s_fun f n o tp ps c bo tb f' b bc id :
    t_type f = TOK_FUN -> t_type n = TOK_ID -> t_type o = TOK_PAROPEN -> spells_params tp ps -> t_type c = TOK_PARCLOSE ->
    t_type bo = TOK_BLOCKOPEN -> spells_block tb f' b -> t_type bc = TOK_BLOCKCLOSE ->
    spells_stat (f :: n :: o :: tp ++ c :: bo :: tb ++ [bc]) 0 (S_fun id (t_value n) ps b)
with spells_body : list token -> nat -> body -> Prop :=
| b_block o tb f b c : t_type o = TOK_BLOCKOPEN -> spells_block tb f b -> t_type c = TOK_BLOCKCLOSE -> spells_body (o :: tb ++ [c]) 0 (Block b)
| b_single ts f s : spells_stat ts f s -> spells_body ts f (Single s)
with spells_block : list token -> nat -> stats -> Prop :=
| ss_none : spells_block [] 0 Ss_nil
| ss_some ts f l : spells_stats ts f l -> spells_block ts f l
with spells_stats : list token -> nat -> stats -> Prop :=
| ss_one ts f s : spells_stat ts f s -> spells_stats ts f (Ss_cons s Ss_nil)
| ss_more ts f s tr f' l : spells_stat ts f s -> f <> 2%nat -> spells_stats tr f' l -> spells_stats (ts ++ tr) f' (Ss_cons s l).
(** What can follow a statement: 0, anything that can be there; 1 (it ends with an if without
    else), not an else; 2 (it ends with a return without value), only a closing brace. *)

Definition no_statend (t : token) : bool := match t_type t with TOK_STATEND => false | _ => true end.
(** A script: not empty, not ending with a return without value. *)
Definition spells_script (toks : list token) (l : stats) : Prop :=
  exists f, spells_stats (filter no_statend toks) f l /\ f <> 2%nat.

(** * Static rules *)
(** Where a construct stands: outside functions; outside functions but between braces; in a
    function with these variables, in the order of their declaration. *)
Inductive scope := Top | TopBlock | Local (l : list str).
Definition memb (x : str) (l : list str) : bool := existsb (fun y => if list_eq_dec Z.eq_dec x y then true else false) l.
Fixpoint distinctb (l : list str) : bool := match l with [] => true | x :: r => negb (memb x r) && distinctb r end.
(** The scope after a statement. *)
Definition declare (sc : scope) (x : str) : scope := match sc with Local l => Local (l ++ [x]) | _ => sc end.
Definition after (sc : scope) (s : stat) : scope := match s with S_var x | S_varinit x _ => declare sc x | _ => sc end.
(** The scope of statements between braces. *)
Definition inner (sc : scope) : scope := match sc with Top => TopBlock | _ => sc end.
(** The variables of a function: self and the parameters; a lambda inside a function also has
    copies of the variables of that function. *)
Definition fun_vars (sc : scope) (params : list str) : list str :=
  match sc with Local l => l ++ params | _ => bs "self" :: params end.
Definition few (l : list str) : bool := (distinctb l && (zlen l <? 2 ^ 31))%bool.

Section Static.
(** The C function strtof: the bits of the float, or nothing. *)
Variable strtof : list Z -> option Z.
Definition is_some {A} (o : option A) : bool := match o with Some _ => true | None => false end.
Definition dotted (t : str) : bool := existsb (Z.eqb 46) t.
(** A numeral that the assembler can read. *)
Definition numeral (t : str) : bool :=
  (negb (match t with [] => true | _ => false end) && forallb (fun c => negb (isspace c) && negb (c =? BAR) && negb (c =? 0)) t
   && is_some (if dotted t then strtof t else strtoul t))%bool.
Fixpoint count (l : exprs) : Z := match l with Es_nil => 0 | Es_cons _ r => count r + 1 end.
Definition declarable (sc : scope) (x : str) : bool :=
  match sc with Top => true | TopBlock => false | Local l => few (l ++ [x]) end.
Definition in_fun (sc : scope) : bool := match sc with Local _ => true | _ => false end.
Definition not_block (sc : scope) : bool := match sc with TopBlock => false | _ => true end.
Definition single_ok (s : stat) : bool := match s with S_var _ | S_varinit _ _ | S_fun _ _ _ _ => false | _ => true end.

(** What can be called: the value of a variable, of an element of a table, of a call. *)
Definition is_ref (e : expr) : bool := match e with E_var _ | E_get _ _ | E_call _ _ => true | _ => false end.
Definition call_ok (f : expr) (l : exprs) : bool := is_ref f && (count l <? 2 ^ 31 - 1).

(** No variable is declared twice, no variable is declared and no lambda made between braces outside
    functions (C89), return only in functions, functions defined only outside functions; a
    declaration is not the whole body of an if or a loop. *)
Fixpoint ok_e (sc : scope) (e : expr) : bool :=
  match e with
  | E_nil | E_str _ | E_var _ => true
  | E_num t => numeral t
  | E_un _ e => ok_e sc e
  | E_bin _ e1 e2 => ok_e sc e1 && ok_e sc e2
  | E_table l => ok_f sc l
  | E_get e k => ok_e sc e && ok_e sc k
  | E_call f l => ok_e sc f && ok_es sc l && call_ok f l
  | E_fun _ ps b => not_block sc && few (fun_vars sc ps) && ok_ss (Local (fun_vars sc ps)) b
  end
with ok_es (sc : scope) (l : exprs) : bool := match l with Es_nil => true | Es_cons e r => ok_e sc e && ok_es sc r end
with ok_f (sc : scope) (l : fields) : bool := match l with F_nil => true | F_cons k e r => ok_e sc k && ok_e sc e && ok_f sc r end
with ok_s (sc : scope) (s : stat) : bool :=
  match s with
  | S_var x => declarable sc x
  | S_varinit x e => declarable sc x && ok_e (declare sc x) e
  | S_assign _ e => ok_e sc e
  | S_put e k v => ok_e sc e && ok_e sc k && ok_e sc v
  | S_call f l => ok_e sc f && ok_es sc l && call_ok f l
  | S_if c b => ok_e sc c && ok_b sc b
  | S_ifelse c b1 b2 => ok_e sc c && ok_b sc b1 && ok_b sc b2
  | S_while c b => ok_e sc c && ok_b sc b
  | S_for i c u b => (single_ok i && single_ok u) && (ok_s sc i && ok_e sc c && ok_s sc u && ok_b sc b)
  | S_return => in_fun sc
  | S_returnval e => in_fun sc && ok_e sc e
  | S_fun _ _ ps b => match sc with Top => few (fun_vars Top ps) && ok_ss (Local (fun_vars Top ps)) b | _ => false end
  end
with ok_b (sc : scope) (b : body) : bool :=
  match b with Block l => ok_ss (inner sc) l | Single s => single_ok s && ok_s sc s end
with ok_ss (sc : scope) (l : stats) : bool :=
  match l with Ss_nil => true | Ss_cons s r => ok_s sc s && ok_ss (after sc s) r end.

(** The functions of a program: name of the function, its variables, its statements. *)
Record func := mkFn { fn_id : Z; fn_vars : list str; fn_body : stats }.
Fixpoint funs_e (sc : scope) (e : expr) : list func :=
  match e with
  | E_nil | E_str _ | E_var _ | E_num _ => []
  | E_un _ e => funs_e sc e
  | E_bin _ e1 e2 => funs_e sc e1 ++ funs_e sc e2
  | E_table l => funs_f sc l
  | E_get e k => funs_e sc e ++ funs_e sc k
  | E_call f l => funs_e sc f ++ funs_es sc l
  | E_fun id ps b => mkFn id (fun_vars sc ps) b :: funs_ss (Local (fun_vars sc ps)) b
  end
with funs_es (sc : scope) (l : exprs) : list func := match l with Es_nil => [] | Es_cons e r => funs_e sc e ++ funs_es sc r end
with funs_f (sc : scope) (l : fields) : list func := match l with F_nil => [] | F_cons k e r => funs_e sc k ++ funs_e sc e ++ funs_f sc r end
with funs_s (sc : scope) (s : stat) : list func :=
  match s with
  | S_var x => []
  | S_varinit x e => funs_e (declare sc x) e
  | S_assign _ e => funs_e sc e
  | S_put e k v => funs_e sc e ++ funs_e sc k ++ funs_e sc v
  | S_call f l => funs_e sc f ++ funs_es sc l
  | S_if c b => funs_e sc c ++ funs_b sc b
  | S_ifelse c b1 b2 => funs_e sc c ++ funs_b sc b1 ++ funs_b sc b2
  | S_while c b => funs_e sc c ++ funs_b sc b
  | S_for i c u b => funs_s sc i ++ funs_e sc c ++ funs_s sc u ++ funs_b sc b
  | S_return => []
  | S_returnval e => funs_e sc e
  | S_fun id _ ps b => mkFn id (fun_vars Top ps) b :: funs_ss (Local (fun_vars Top ps)) b
  end
with funs_b (sc : scope) (b : body) : list func :=
  match b with Block l => funs_ss (inner sc) l | Single s => funs_s sc s end
with funs_ss (sc : scope) (l : stats) : list func :=
  match l with Ss_nil => [] | Ss_cons s r => funs_s sc s ++ funs_ss (after sc s) r end.

(** The functions defined by the statements of a script, and the global variables it declares: no name is
    both (C86_variable_named_as_function_refuted). *)
Fixpoint defined (l : stats) : list (str * Z) :=
  match l with
  | Ss_nil => []
  | Ss_cons (S_fun id n _ _) r => (n, id) :: defined r
  | Ss_cons _ r => defined r
  end.
Fixpoint declared (l : stats) : list str :=
  match l with
  | Ss_nil => []
  | Ss_cons (S_var x) r | Ss_cons (S_varinit x _) r => x :: declared r
  | Ss_cons _ r => declared r
  end.
Definition ok_script (l : stats) : bool :=
  ok_ss Top l && forallb (fun x => negb (memb x (map fst (defined l)))) (declared l).
End Static.

(** * Meaning *)
(** What an execution does: it ends, it stops with an error, it does something no meaning is given
    to, or it needs more than the calls and iterations allowed. *)
Inductive out (A : Type) := Done (a : A) | Fail (e : verr) | Unspec | More.
Arguments Done {A}. Arguments Fail {A}. Arguments Unspec {A}. Arguments More {A}.
Definition obind {A B} (x : out A) (f : A -> out B) : out B :=
  match x with Done a => f a | Fail e => Fail e | Unspec => Unspec | More => More end.
Definition of_res {A} (x : res A) : out A := match x with Ok a => Done a | _ => Unspec end.

(** The state: the global variables and the tables; for the C functions, the strings and the rest of what they see.
    Local variables are in an environment, in the order of their declaration. *)
Record sst (X : Type) := mkSt { s_glob : str -> obj; s_heap : list table; s_str : strman; s_ext : X }.
Arguments mkSt {X}. Arguments s_glob {X}. Arguments s_heap {X}. Arguments s_str {X}. Arguments s_ext {X}.
Definition locals : Type := list (str * obj).
Definition same (x y : str) : bool := if list_eq_dec Z.eq_dec x y then true else false.
Fixpoint var_get (l : locals) (x : str) : option obj :=
  match l with [] => None | (y, o) :: r => if same x y then Some o else var_get r x end.
Fixpoint var_set (l : locals) (x : str) (v : obj) : locals :=
  match l with [] => [] | (y, o) :: r => if same x y then (y, v) :: r else (y, o) :: var_set r x v end.
Definition set_glob {X} (st : sst X) (x : str) (v : obj) : sst X :=
  mkSt (fun y => if same x y then v else s_glob st y) (s_heap st) (s_str st) (s_ext st).
Definition set_tabs {X} (st : sst X) (h : list table) : sst X := mkSt (s_glob st) h (s_str st) (s_ext st).

(** The operators on two values: those of the VM's instructions (C38, C62, C65). *)
Section Values.
Variable powf : libm.
Definition numbers (x y : obj) (r : out obj) : out obj := if is_num x && is_num y then r else Fail E_TYPE.
Definition on_ints (x y : obj) (f : Z -> Z -> res obj) : out obj :=
  match x, y with OInt a, OInt b => of_res (f a b) | _, _ => Fail E_TYPE end.
Definition compared (x y : obj) (f : Z -> bool) : out obj :=
  obind (of_res (obj_cmp_by (c_strcmp powf) x y)) (fun c => Done (of_bool ((c =? 2) || f c))).
Definition bin_val (b : binop) (x y : obj) : out obj :=
  match b with
  | B_and => Done (of_bool (truthy x && truthy y))
  | B_or => Done (of_bool (truthy x || truthy y))
  | B_eq => compared x y (fun c => c =? 0)
  | B_neq => compared x y (fun c => negb (c =? 0))
  | B_lt => compared x y (fun c => c <? 0)
  | B_lte => compared x y (fun c => c <=? 0)
  | B_gt => compared x y (fun c => c >? 0)
  | B_gte => compared x y (fun c => c >=? 0)
  | B_add => numbers x y (of_res (arith int_add fadd x y))
  | B_sub => numbers x y (of_res (arith int_sub fsub x y))
  | B_mul => numbers x y (of_res (arith int_mul fmul x y))
  | B_div => numbers x y (of_res (arith int_div fdiv x y))
  | B_mod => match x, y with
             | OInt a, OInt b => of_res (int_mod a b)
             | _, _ => numbers x y (Done (float_mod x y))
             end
  | B_pow => numbers x y (Done (OFloat (powf (numf x) (numf y))))
  | B_shl => on_ints x y int_shl
  | B_shr => on_ints x y int_shr
  | B_band => on_ints x y int_and
  | B_bor => on_ints x y int_or
  end.
Definition un_val (u : unop) (x : obj) : out obj :=
  match u with
  | U_not => Done (of_bool (negb (truthy x)))
  | U_neg => match x with
             | OInt z => of_res (i32 (- z))
             | OFloat f => Done (OFloat (fneg f))
             | _ => Fail E_TYPE
             end
  | U_bnot => match x with OInt z => Done (OInt (Z.lnot z)) | _ => Fail E_TYPE end
  end.
End Values.
(** Tables: reading, and writing, where nil removes the entry and a function becomes a method. *)
Definition table_at (h : list table) (a : Z) : out table :=
  if 0 <=? a then match nth_error h (Z.to_nat a) with Some t => Done t | None => Unspec end else Unspec.
Definition get_val {X} (st : sst X) (t k : obj) : out obj :=
  match t with
  | OTab a =>
      if is_key k then
        obind (table_at (s_heap st) a) (fun d =>
        obind (of_res (tab_get d k)) (fun r => Done match r with Some o => o | None => ONil end))
      else Unspec
  | _ => Fail E_TYPE
  end.
Definition put_val {X} (st : sst X) (t k x : obj) : out (sst X) :=
  match t with
  | OTab a =>
      if is_key k then
        obind (table_at (s_heap st) a) (fun d =>
        obind (of_res (match x with ONil => tab_remove d k | _ => tab_set d k (bind_self t x) end)) (fun d' =>
        Done (set_tabs st (upd (s_heap st) (Z.to_nat a) d'))))
      else Fail E_TYPE
  | _ => Fail E_TYPE
  end.

Section Meaning.
Context {X : Type}.
Notation sst := (sst X).
Variable strtof : list Z -> option Z.
Variable powf : libm.
Variable sid : str -> Z.      (* the identifiers of the strings of the program *)
Variable ref : Z -> Z.        (* the number that stands for a function in its values *)
Variable fns : list func.     (* the functions of the program *)
(** What the C functions do: the one with number [i], called with the self object and the arguments. *)
Variable cfun : Z -> list obj -> sst -> out (obj * sst).

Definition num_val (t : str) : obj :=
  if dotted t then OFloat (f_of_bits (wrap32 match strtof t with Some w => w | None => 0 end))
  else OInt (sign32 match strtoul t with Some w => w | None => 0 end).
Definition var_val (x : str) (l : locals) (st : sst) : obj :=
  match var_get l x with Some o => o | None => s_glob st x end.
(** The value of a lambda: it copies the local variables; outside functions, it has only self. *)
Definition fun_val (id : Z) (l : locals) : obj :=
  OClos true (ref id) (match l with [] => [ONil] | _ => map snd l end).

(** Calls and loops take the number of calls and iterations left from [call] and [again]. *)
Record rest := mkRest {
  call : obj -> list obj -> sst -> out (obj * sst);
  again : expr -> option stat -> body -> locals -> sst -> out (option obj * locals * sst)
}.
Section Step.
Variable next : rest.

Fixpoint eval (e : expr) (l : locals) (st : sst) : out (obj * sst) :=
  match e with
  | E_nil => Done (ONil, st)
  | E_num t => Done (num_val t, st)
  | E_str s => Done (OStr (sid s) s, st)
  | E_var x => Done (var_val x l st, st)
  | E_un u e => obind (eval e l st) (fun '(x, st) => obind (un_val u x) (fun r => Done (r, st)))
  | E_bin b e1 e2 =>
      obind (eval e1 l st) (fun '(x, st) => obind (eval e2 l st) (fun '(y, st) =>
      obind (bin_val powf b x y) (fun r => Done (r, st))))
  | E_table fs => (* a new table *)
      let t := OTab (zlen (s_heap st)) in
      obind (fill fs t l (set_tabs st (s_heap st ++ [tab_new]))) (fun st => Done (t, st))
  | E_get e k =>
      obind (eval e l st) (fun '(t, st) => obind (eval k l st) (fun '(k, st) => obind (get_val st t k) (fun r => Done (r, st))))
  | E_call f args =>
      obind (eval f l st) (fun '(f, st) => obind (evals args l st) (fun '(vs, st) => call next f vs st))
  | E_fun id _ _ => Done (fun_val id l, st)
  end
with evals (es : exprs) (l : locals) (st : sst) : out (list obj * sst) :=
  match es with
  | Es_nil => Done ([], st)
  | Es_cons e r => obind (eval e l st) (fun '(x, st) => obind (evals r l st) (fun '(xs, st) => Done (x :: xs, st)))
  end
with fill (fs : fields) (t : obj) (l : locals) (st : sst) : out sst :=
  match fs with
  | F_nil => Done st
  | F_cons k e r =>
      obind (eval k l st) (fun '(k, st) => obind (eval e l st) (fun '(x, st) => obind (put_val st t k x) (fun st => fill r t l st)))
  end.

Definition assign (x : str) (v : obj) (l : locals) (st : sst) : locals * sst :=
  match var_get l x with Some _ => (var_set l x v, st) | None => (l, set_glob st x v) end.
(** Declared variables are local in functions. *)
Definition new_var (top : bool) (x : str) (v : obj) (l : locals) (st : sst) : locals * sst :=
  if top then (l, set_glob st x v) else (l ++ [(x, v)], st).
Definition is_top (l : locals) : bool := match l with [] => true | _ => false end.

(** The result of statements: [Some v] when they returned [v]; the local variables; the state. *)
Definition sres : Type := option obj * locals * sst.
Definition then_ (x : out sres) (f : locals -> sst -> out sres) : out sres :=
  obind x (fun '(r, l, st) => match r with Some _ => Done (r, l, st) | None => f l st end).

Fixpoint exec (s : stat) (l : locals) (st : sst) : out sres :=
  match s with
  | S_var x => let '(l, st) := new_var (is_top l) x ONil l st in Done (None, l, st)
  | S_varinit x e =>
      if is_top l then obind (eval e l st) (fun '(v, st) => Done (None, l, set_glob st x v))
      else (* the variable is nil while its value is computed *)
        let l := l ++ [(x, ONil)] in obind (eval e l st) (fun '(v, st) => Done (None, var_set l x v, st))
  | S_assign x e => obind (eval e l st) (fun '(v, st) => let '(l, st) := assign x v l st in Done (None, l, st))
  | S_put e k v =>
      obind (eval e l st) (fun '(t, st) => obind (eval k l st) (fun '(k, st) => obind (eval v l st) (fun '(x, st) =>
      obind (put_val st t k x) (fun st => Done (None, l, st)))))
  | S_call f args =>
      obind (eval f l st) (fun '(f, st) => obind (evals args l st) (fun '(vs, st) =>
      obind (call next f vs st) (fun '(_, st) => Done (None, l, st))))
  | S_if c b => obind (eval c l st) (fun '(x, st) => if truthy x then exec_body b l st else Done (None, l, st))
  | S_ifelse c b1 b2 => obind (eval c l st) (fun '(x, st) => if truthy x then exec_body b1 l st else exec_body b2 l st)
  | S_while c b =>
      obind (eval c l st) (fun '(x, st) =>
      if truthy x then then_ (exec_body b l st) (again next c None b) else Done (None, l, st))
  | S_for i c u b =>
      then_ (exec i l st) (fun l st =>
      obind (eval c l st) (fun '(x, st) =>
      if truthy x then then_ (exec_body b l st) (fun l st => then_ (exec u l st) (again next c (Some u) b)) else Done (None, l, st)))
  | S_return => Done (Some ONil, l, st)
  | S_returnval e => obind (eval e l st) (fun '(v, st) => Done (Some v, l, st))
  | S_fun _ _ _ _ => Done (None, l, st)   (* defined before the script starts *)
  end
with exec_body (b : body) (l : locals) (st : sst) : out sres :=
  match b with
  | Block ss => (* its variables end with it *)
      obind (exec_all ss l st) (fun '(r, l', st) => Done (r, firstn (length l) l', st))
  | Single s => exec s l st
  end
with exec_all (ss : stats) (l : locals) (st : sst) : out sres :=
  match ss with
  | Ss_nil => Done (None, l, st)
  | Ss_cons s r => then_ (exec s l st) (exec_all r)
  end.

(** The next iterations of a loop. *)
Definition iterate (c : expr) (u : option stat) (b : body) (l : locals) (st : sst) : out sres :=
  obind (eval c l st) (fun '(x, st) =>
  if truthy x then
    then_ (exec_body b l st) (fun l st =>
    match u with
    | None => again next c u b l st
    | Some s => then_ (exec s l st) (again next c u b)
    end)
  else Done (None, l, st)).
(** A call of the value [f]. *)
Definition apply (f : obj) (vs : list obj) (st : sst) : out (obj * sst) :=
  match f with
  | OClos true r captured =>
      match find (fun fn => ref (fn_id fn) =? r) fns with
      | Some fn =>
          if (zlen (captured ++ vs) =? zlen (fn_vars fn))%Z then
            obind (exec_all (fn_body fn) (combine (fn_vars fn) (captured ++ vs)) st) (fun '(r, _, st) =>
            Done (match r with Some v => v | None => ONil end, st))
          else Unspec
      | None => Unspec
      end
  | OClos false i captured => cfun i (captured ++ vs) st
  | _ => Fail E_TYPE
  end.
End Step.

(** At most [n] nested calls and iterations. *)
Fixpoint at_most (n : nat) : rest :=
  match n with
  | O => mkRest (fun f vs st => match f with OClos true _ _ => More | OClos false i captured => cfun i (captured ++ vs) st | _ => Fail E_TYPE end) (fun _ _ _ _ _ => More)
  | S m => mkRest (apply (at_most m)) (iterate (at_most m))
  end.
(** The functions of the script are defined before its first statement; when a name is defined
    twice the last definition counts. *)
Definition start (l : stats) (sm : strman) (x : X) : sst :=
  mkSt (fun x => match find (fun d => same x (fst d)) (rev (defined l)) with
                 | Some (_, id) => OClos true (ref id) [ONil]
                 | None => ONil
                 end) [] sm x.
(** The script, from the state [st]. *)
Definition run (n : nat) (l : stats) (st : sst) : out sst :=
  obind (exec_all (at_most n) l [] st) (fun '(_, _, st) => Done st).
End Meaning.
