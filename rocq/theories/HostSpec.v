(** Specification vocabulary for programs that run a script with C functions of their own and call its
    functions: the meaning of such a script and of such calls. *)
From Verif Require Import Base Float Dict PDict Strman StrmanSpec Obj Instr Vm VmSpec Text Asm Load Source CompileSpec GcSpec.
Local Open Scope Z_scope. Local Open Scope list_scope.

Section Host.
Context {X : Type}.
Implicit Types v : vm X.
(** The script has ended, or one of its functions has been called and has returned: the next instruction is the
    end of the script; no function is being executed; [s] is on the stack; the rest of the state is that of the language. *)
Definition waiting (code : list Z) (sm_ok : strman -> Prop) (sid : str -> Z) (ws : list str) v (st : sst X) (s : list obj) : Prop :=
  (v_state v = S_DONE \/ v_state v = S_READY) /\ byte code (v_pc v) = opnum I_DONE /\ 0 <= v_pc v < zlen code /\
  v_stacks v = [s] /\ v_lsymts v = [] /\ agrees sm_ok sid ws v st.

(** [go fuel] gives [v'] for all the fuels from some on. *)
Definition gives_from {A} (go : nat -> res A) (P : A -> Prop) : Prop := exists k a, (forall fuel, (k <= fuel)%nat -> go fuel = Ok a) /\ P a.

(** What executing a script does when its meaning is [o]. *)
Definition executes (code : list Z) sm_ok sid ws (go : nat -> res (vm X)) (o : out (sst X)) : Prop :=
  match o with
  | Done st => gives_from go (fun v' => v_state v' = S_DONE /\ waiting code sm_ok sid ws v' st [])
  | Fail e => gives_from go (fun v' => v_state v' = S_ERROR /\ v_error v' = e)
  | Unspec | More => True
  end.
(** What a call of a function does when its meaning is [o]: the returned value is on top of [s]. *)
Definition answers (code : list Z) sm_ok sid ws (s : list obj) (go : nat -> res (vm X)) (o : out (obj * sst X)) : Prop :=
  match o with
  | Done (r, st) => gives_from go (fun v' => v_state v' = S_READY /\ waiting code sm_ok sid ws v' st (r :: s))
  | Fail e => gives_from go (fun v' => v_state v' = S_ERROR /\ v_error v' = e)
  | Unspec | More => True
  end.
End Host.

(** String managers that have the strings of [sm0] under the same identifiers. *)
Definition keeping (sm0 sm : strman) : Prop :=
  strings_ok sm /\ forall i t, 0 <= i < 65536 -> sm_get sm0 i = Some t -> sm_get sm i = Some t.

(** The host stores a value in a global variable: buzzvm_pushs(vm, buzzvm_string_register(vm, name, 1)); a push of the value,
    such as buzzvm_pushcc(vm, id); buzzvm_gstore(vm).  See src/buzz/buzzrun.c 92-94 and buzzvm.c 688-690. *)
Definition define {X} (v : vm X) (name : str) (o : obj) : res (vm X) :=
  v1 <- push_string v name ;; vm_gstore (push v1 o).

(** The meaning of the C functions of buzzstring.c numbered 0 (string.length), 1 (string.sub), 2 (string.concat);
    the first argument is self. *)
Section StringFuns.
Context {X : Type}.
Implicit Types st : sst X.
Definition set_strs st (sm : strman) : sst X := mkSt (s_glob st) (s_heap st) sm (s_ext st).
Definition new_string st (t : str) : out (obj * sst X) :=
  if sm_live (s_str st) <? 65534 then
    match sm_register sm_fuel (s_str st) t false with Ok (sm, id) => Done (OStr id t, set_strs st sm) | _ => Unspec end
  else Unspec.
Definition part_of (t : str) (n m : Z) : str := firstn (Z.to_nat (m - n)) (skipn (Z.to_nat n) t).
Definition string_cfun (i : Z) (args : list obj) st : out (obj * sst X) :=
  match i, args with
  | 0, [_; OStr _ t] => if zlen t <? 2 ^ 31 then Done (OInt (zlen t), st) else Unspec
  | 0, [_; _] => Fail E_TYPE
  | 0, _ => Fail E_LNUM
  | 1, [_; OStr _ t; OInt n] =>
      if (2 ^ 31 <=? zlen t) || (n <? 0) then Unspec
      else if zlen t <=? n then Done (ONil, st) else new_string st (part_of t n (zlen t))
  | 1, [_; OStr _ t; OInt n; OInt m] =>
      if (2 ^ 31 <=? zlen t) || (n <? 0) then Unspec
      else if (zlen t <=? n) || (m <? n) then Done (ONil, st) else new_string st (part_of t n (Z.min m (zlen t)))
  | 2, [_; OStr _ t; OStr _ u] => if zlen t + zlen u <? 2 ^ 32 then new_string st (t ++ u) else Unspec
  | _, _ => Unspec
  end.
End StringFuns.

(** The host calls functions of the script one after the other, by their names and without arguments. *)
Fixpoint function_calls {X} flist powf (code : list Z) (fuel : nat) (v : vm X) (fs : list str) : res (vm X) :=
  match fs with [] => Ok v | f :: r => v1 <- function_call flist powf (byte code) (zlen code) fuel v f 0 ;; function_calls flist powf code fuel v1 r end.
(** Their meaning: the values they return, the first one first, and the state; C functions are not called this way. *)
Fixpoint calls {X} (k : @rest X) (fs : list str) (st : sst X) : out (list obj * sst X) :=
  match fs with
  | [] => Done ([], st)
  | f :: r =>
      match s_glob st f with
      | OClos false _ _ => Unspec
      | o => obind (call k o [] st) (fun '(x, st) => obind (calls k r st) (fun '(xs, st) => Done (x :: xs, st)))
      end
  end.
