(** Specification: the strings of a script, and what it means that the VM does what a script says. *)
From Verif Require Import Base Float Text Lex Asm AsmSpec Dict PDict Strman Obj Vm VmSpec Source.
Local Open Scope Z_scope. Local Open Scope list_scope.

(** The texts of a script that are there when it runs: its strings, the names of its functions and those
    of the variables that are not local. *)
Definition global_name (sc : scope) (x : str) : list str :=
  match sc with Local l => if memb x l then [] else [x] | _ => [x] end.
Definition declared_name (sc : scope) (x : str) : list str := match sc with Local _ => [] | _ => [x] end.
Fixpoint words_e (sc : scope) (e : expr) : list str :=
  match e with
  | E_nil | E_num _ => []
  | E_str s => [s]
  | E_var x => global_name sc x
  | E_un _ e => words_e sc e
  | E_bin _ e1 e2 => words_e sc e1 ++ words_e sc e2
  | E_table l => words_f sc l
  | E_get e k => words_e sc e ++ words_e sc k
  | E_call f l => words_e sc f ++ words_es sc l
  | E_fun _ ps b => words_ss (Local (fun_vars sc ps)) b
  end
with words_es (sc : scope) (l : exprs) : list str := match l with Es_nil => [] | Es_cons e r => words_e sc e ++ words_es sc r end
with words_f (sc : scope) (l : fields) : list str := match l with F_nil => [] | F_cons k e r => words_e sc k ++ words_e sc e ++ words_f sc r end
with words_s (sc : scope) (s : stat) : list str :=
  match s with
  | S_var x => declared_name sc x
  | S_varinit x e => declared_name sc x ++ words_e (declare sc x) e
  | S_assign x e => global_name sc x ++ words_e sc e
  | S_put e k v => words_e sc e ++ words_e sc k ++ words_e sc v
  | S_call f l => words_e sc f ++ words_es sc l
  | S_if c b => words_e sc c ++ words_b sc b
  | S_ifelse c b1 b2 => words_e sc c ++ words_b sc b1 ++ words_b sc b2
  | S_while c b => words_e sc c ++ words_b sc b
  | S_for i c u b => words_s sc i ++ words_e sc c ++ words_s sc u ++ words_b sc b
  | S_return => []
  | S_returnval e => words_e sc e
  | S_fun _ x ps b => x :: words_ss (Local (fun_vars Top ps)) b
  end
with words_b (sc : scope) (b : body) : list str :=
  match b with Block l => words_ss (inner sc) l | Single s => words_s sc s end
with words_ss (sc : scope) (l : stats) : list str :=
  match l with Ss_nil => [] | Ss_cons s r => words_s sc s ++ words_ss (after sc s) r end.
Definition words (l : stats) : list str := words_ss Top l.
Definition functions (l : stats) : list func := funs_ss Top l.

Section Does.
Context {X : Type}.
Variable flist : list (vm X -> res (vm X)).
Variable powf : libm.
Variable code : Z -> Z.
Variable size : Z.
(** Executing the bytecode from [v] does what the meaning [o] of the script says, when [n] calls and
    iterations were allowed for: it ends with the global variables, the tables, the strings and the rest of the
    state of the meaning, the stack and the frames being empty; it stops with the error; or it goes on for at
    least [n] steps. *)
Definition does (sid : str -> Z) (ws : list str) (v : vm X) (n : nat) (o : out (sst X)) : Prop :=
  match o with
  | Done st => exists k v', vm_steps flist powf code size k v = Ok v' /\ v_state v' = S_DONE /\ v_error v' = E_NONE /\
      (forall x, In x ws -> global v' (sid x) = s_glob st x) /\ v_heap v' = s_heap st /\ v_stacks v' = [[]] /\ v_lsymts v' = [] /\
      v_str v' = s_str st /\ v_ext v' = s_ext st
  | Fail e => exists k v', vm_steps flist powf code size k v = Ok v' /\ v_state v' = S_ERROR /\ v_error v' = e
  | Unspec => True
  | More => exists k v', (n <= k)%nat /\ vm_steps flist powf code size k v = Ok v' /\ v_state v' = S_READY
  end.

(** The C functions of the VM do what [cfun] says.  [sm_ok] is kept by the string manager. *)
Definition c_functions (sm_ok : strman -> Prop) (cfun : Z -> list obj -> sst X -> out (obj * sst X)) : Prop :=
  (forall i args st, ~ 0 <= i < zlen flist -> cfun i args st = Unspec) /\
  forall i f args (st : sst X) (v : vm X) ra s rest L,
    0 <= i -> nth_error flist (Z.to_nat i) = Some f ->
    v_state v = S_READY -> v_error v = E_NONE -> v_stacks v = [] :: (OInt ra :: s) :: rest -> v_lsymts v = mkLs (map Some args) false :: L ->
    v_heap v = s_heap st -> v_str v = s_str st -> v_ext v = s_ext st -> sm_ok (v_str v) ->
    match cfun i args st with
    | Done (r, st') => exists v', f v = Ok v' /\ v_state v' = S_READY /\ v_error v' = E_NONE /\ v_pc v' = ra /\
        v_stacks v' = (r :: s) :: rest /\ v_lsymts v' = L /\ v_gsyms v' = v_gsyms v /\ (forall x, s_glob st' x = s_glob st x) /\
        v_heap v' = s_heap st' /\ v_str v' = s_str st' /\ v_ext v' = s_ext st' /\ sm_ok (v_str v')
    | Fail e => exists v', f v = Ok v' /\ v_state v' = S_ERROR /\ v_error v' = e
    | Unspec => True
    | More => False
    end.
Definition no_c : Z -> list obj -> sst X -> out (obj * sst X) := fun _ _ _ => Unspec.
(** The state of the VM, apart from the stacks, the frames and the program counter, is that of the language. *)
Definition agrees (sm_ok : strman -> Prop) (sid : str -> Z) (ws : list str) (v : vm X) (st : sst X) : Prop :=
  v_error v = E_NONE /\ stored_globals (v_gsyms v) /\ v_heap v = s_heap st /\ v_str v = s_str st /\ v_ext v = s_ext st /\
  (forall x, In x ws -> s_glob st x = global v (sid x)) /\
  sm_ok (v_str v) /\ (forall sm x, sm_ok sm -> In x ws -> sm_get sm (sid x) = Some x).
(** After the script was loaded, in [v], the host may have defined global variables, such as its C functions,
    strings and tables: the state is [v1], and [st] for the language.  *)
Definition prepared (sm_ok : strman -> Prop) (sid : str -> Z) (ws : list str) (v v1 : vm X) (st : sst X) : Prop :=
  v_state v1 = S_READY /\ v_pc v1 = v_pc v /\ v_stacks v1 = v_stacks v /\ v_lsymts v1 = v_lsymts v /\ agrees sm_ok sid ws v1 st.
End Does.

(** What the text of a compiled script can carry: the positions of the tokens are written as numbers and
    as the name of the file, between commas and up to the end of the line; texts are written on one line. *)
Definition fine_token (t : token) : Prop :=
  t_type t <> TOK_EOF /\ t_type t <> TOK_STATEND /\ dbg_ok (Some (t_line t, t_col t, t_file t)) /\
  Forall (fun c => c <> NL /\ c <> 0) (t_value t).
