(** A compiler from the abstract syntax of Source.v to assembly lines, used to state what the parser of
    Parser.v emits: code without debug information, threading the number of the next label, the
    strings in the order of their positions, and the functions met so far. *)
From Coq Require Import String.
From Verif Require Import Base Dict Strman Text Instr AsmSpec Source.
Local Open Scope Z_scope. Local Open Scope list_scope.

Record gchunk := mkGc { gc_label : Z; gc_name : option str; gc_fn : func; gc_code : list aline }.
Record gst := mkG { g_lab : Z; g_strs : list str; g_chunks : list gchunk }.
Definition labname (n : Z) : str := bs "@__label_" ++ print_u n.
Definition ins (o : opcode) : aline := L_instr o P_none None.
Definition insn (o : opcode) (n : Z) : aline := L_instr o (P_int n) None.
Definition insl (o : opcode) (n : Z) : aline := L_instr o (P_label (labname n)) None.
Definition lab (n : Z) : aline := L_label (labname n) None.

Fixpoint index (x : str) (l : list str) : option Z :=
  match l with [] => None | y :: r => if same x y then Some 0 else match index x r with Some i => Some (i + 1) | None => None end end.
(** The position of a string, added at the end when it is new. *)
Definition addstr (g : gst) (s : str) : Z * gst :=
  match index s (g_strs g) with
  | Some i => (i, g)
  | None => (zlen (g_strs g), mkG (g_lab g) (g_strs g ++ [s]) (g_chunks g))
  end.
Definition labels (g : gst) (k : Z) : gst := mkG (g_lab g + k) (g_strs g) (g_chunks g).

Definition bin_op (b : binop) : opcode :=
  match b with
  | B_and => I_LAND | B_or => I_LOR | B_eq => I_EQ | B_neq => I_NEQ | B_lt => I_LT | B_lte => I_LTE | B_gt => I_GT | B_gte => I_GTE
  | B_add => I_ADD | B_sub => I_SUB | B_mul => I_MUL | B_div => I_DIV | B_mod => I_MOD | B_pow => I_POW
  | B_shl => I_LSHIFT | B_shr => I_RSHIFT | B_band => I_BAND | B_bor => I_BOR
  end.
Definition un_op (u : unop) : opcode := match u with U_neg => I_UNM | U_bnot => I_BNOT | U_not => I_LNOT end.
Definition num_line (t : str) : aline := if dotted t then L_instr I_PUSHF (P_float t) None else L_instr I_PUSHI (P_num t) None.
(** The slot of a local variable. *)
Definition slot (sc : scope) (x : str) : option Z := match sc with Local l => index x l | _ => None end.
Definition nvars (sc : scope) : Z := match sc with Local l => zlen l | _ => 0 end.
(** Loading a variable. *)
Definition gen_load (sc : scope) (x : str) (g : gst) : list aline * gst :=
  match slot sc x with
  | Some i => ([insn I_LLOAD i], g)
  | None => let '(p, g) := addstr g x in ([insn I_PUSHS p; ins I_GLOAD], g)
  end.
Definition endvars (sc sc' : scope) : list aline :=
  if nvars sc' - nvars sc =? 0 then [] else [insn I_LREMOVE (nvars sc' - nvars sc)].
(** The scope after statements. *)
Fixpoint afters (sc : scope) (l : stats) : scope := match l with Ss_nil => sc | Ss_cons s r => afters (after sc s) r end.
Definition when (c : bool) (l : list aline) : list aline := if c then l else [].

(** [c]: the value is going to be called; the object that becomes self is under it. *)
Fixpoint gen_e (sc : scope) (e : expr) (c : bool) (g : gst) : list aline * gst :=
  match e with
  | E_nil => ([ins I_PUSHNIL], g)
  | E_num t => ([num_line t], g)
  | E_str s => let '(p, g) := addstr g s in ([insn I_PUSHS p], g)
  | E_var x => let '(l, g) := gen_load sc x g in (when c [ins I_PUSHNIL] ++ l, g)
  | E_un u e => let '(l, g) := gen_e sc e false g in (l ++ [ins (un_op u)], g)
  | E_bin b e1 e2 =>
      let '(l1, g) := gen_e sc e1 false g in let '(l2, g) := gen_e sc e2 false g in (l1 ++ l2 ++ [ins (bin_op b)], g)
  | E_table l => let '(l, g) := gen_f sc l g in (ins I_PUSHT :: l, g)
  | E_get e k =>
      let '(l1, g) := gen_e sc e false g in let '(l2, g) := gen_e sc k false g in
      (l1 ++ when c [ins I_DUP] ++ l2 ++ [ins I_TGET], g)
  | E_call f args =>
      let '(l1, g) := gen_e sc f true g in let '(l2, g) := gen_es sc args g in
      (when c [ins I_PUSHNIL] ++ l1 ++ l2 ++ [insn I_PUSHI (count args); ins I_CALLC], g)
  | E_fun id ps b =>
      let n := g_lab g in
      let vs := fun_vars sc ps in
      let '(l, g1) := gen_ss (Local vs) b (mkG (n + 1) (g_strs g) []) in
      ([insl I_PUSHL n],
       mkG (g_lab g1) (g_strs g1)
         (g_chunks g ++ mkGc n None (mkFn id vs b) (l ++ endvars (Local vs) (afters (Local vs) b) ++ [ins I_RET0]) :: g_chunks g1))
  end
with gen_es (sc : scope) (es : exprs) (g : gst) : list aline * gst :=
  match es with
  | Es_nil => ([], g)
  | Es_cons e r => let '(l1, g) := gen_e sc e false g in let '(l2, g) := gen_es sc r g in (l1 ++ l2, g)
  end
with gen_f (sc : scope) (fs : fields) (g : gst) : list aline * gst :=
  match fs with
  | F_nil => ([], g)
  | F_cons k e r =>
      let '(l1, g) := gen_e sc k false g in let '(l2, g) := gen_e sc e false g in let '(l3, g) := gen_f sc r g in
      (ins I_DUP :: l1 ++ l2 ++ ins I_TPUT :: l3, g)
  end
with gen_s (sc : scope) (s : stat) (g : gst) : list aline * gst :=
  match s with
  | S_var x =>
      match sc with
      | Local l => ([ins I_PUSHNIL; insn I_LSTORE (zlen l)], g)
      | _ => let '(p, g) := addstr g x in ([insn I_PUSHS p; ins I_PUSHNIL; ins I_GSTORE], g)
      end
  | S_varinit x e =>
      match sc with
      | Local l => let '(l1, g) := gen_e (declare sc x) e false g in
                   (ins I_PUSHNIL :: insn I_LSTORE (zlen l) :: l1 ++ [insn I_LSTORE (zlen l)], g)
      | _ => let '(p, g) := addstr g x in let '(l1, g) := gen_e (declare sc x) e false g in (insn I_PUSHS p :: l1 ++ [ins I_GSTORE], g)
      end
  | S_assign x e =>
      match slot sc x with
      | Some i => let '(l1, g) := gen_e sc e false g in (l1 ++ [insn I_LSTORE i], g)
      | None => let '(p, g) := addstr g x in let '(l1, g) := gen_e sc e false g in (insn I_PUSHS p :: l1 ++ [ins I_GSTORE], g)
      end
  | S_put e k v =>
      let '(l1, g) := gen_e sc e false g in let '(l2, g) := gen_e sc k false g in let '(l3, g) := gen_e sc v false g in
      (l1 ++ l2 ++ l3 ++ [ins I_TPUT], g)
  | S_call f args =>
      let '(l1, g) := gen_e sc f true g in let '(l2, g) := gen_es sc args g in
      (l1 ++ l2 ++ [insn I_PUSHI (count args); ins I_CALLC; ins I_POP], g)
  | S_if c b =>
      let n := g_lab g in
      let '(l1, g) := gen_e sc c false (labels g 2) in let '(l2, g) := gen_b sc b g in
      (l1 ++ insl I_JUMPZ n :: l2 ++ [lab n], g)
  | S_ifelse c b1 b2 =>
      let n := g_lab g in
      let '(l1, g) := gen_e sc c false (labels g 2) in let '(l2, g) := gen_b sc b1 g in let '(l3, g) := gen_b sc b2 g in
      (l1 ++ insl I_JUMPZ n :: l2 ++ insl I_JUMP (n + 1) :: lab n :: l3 ++ [lab (n + 1)], g)
  | S_while c b =>
      let n := g_lab g in
      let '(l1, g) := gen_e sc c false (labels g 2) in let '(l2, g) := gen_b sc b g in
      (lab n :: l1 ++ insl I_JUMPZ (n + 1) :: l2 ++ [insl I_JUMP n; lab (n + 1)], g)
  | S_for i c u b =>
      let n := g_lab g in
      let '(l1, g) := gen_s sc i (labels g 4) in let '(l2, g) := gen_e sc c false g in
      let '(l3, g) := gen_s sc u g in let '(l4, g) := gen_b sc b g in
      (l1 ++ lab n :: l2 ++ insl I_JUMPNZ (n + 2) :: insl I_JUMP (n + 3) :: lab (n + 1) :: l3 ++
       insl I_JUMP n :: lab (n + 2) :: l4 ++ [insl I_JUMP (n + 1); lab (n + 3)], g)
  | S_return => ([ins I_RET0], g)
  | S_returnval e => let '(l, g) := gen_e sc e false g in (l ++ [ins I_RET1], g)
  | S_fun id x ps b =>
      let g := snd (addstr g x) in
      let n := g_lab g in
      let vs := fun_vars Top ps in
      let '(l, g1) := gen_ss (Local vs) b (mkG (n + 1) (g_strs g) []) in
      ([],
       mkG (g_lab g1) (g_strs g1)
         (g_chunks g ++ mkGc n (Some x) (mkFn id vs b) (l ++ endvars (Local vs) (afters (Local vs) b) ++ [ins I_RET0]) :: g_chunks g1))
  end
with gen_b (sc : scope) (b : body) (g : gst) : list aline * gst :=
  match b with
  | Block l => let '(l1, g) := gen_ss (inner sc) l g in (l1 ++ endvars (inner sc) (afters (inner sc) l), g)
  | Single s => gen_s sc s g
  end
with gen_ss (sc : scope) (l : stats) (g : gst) : list aline * gst :=
  match l with
  | Ss_nil => ([], g)
  | Ss_cons s r => let '(l1, g) := gen_s sc s g in let '(l2, g) := gen_ss (after sc s) r g in (l1 ++ l2, g)
  end.

(** The whole script: the label of the main chunk is 0. *)
Definition gen_script (l : stats) : list aline * gst := gen_ss Top l (mkG 1 [] []).
