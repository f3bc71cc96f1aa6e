(** Properties of the compiler: C86-C92. *)
From Coq Require Import String.
From Verif Require Import Base ListLemmas Dict DictProofs PDict PDictKeys Strman Obj Vm Text Lex LexSpec LexProofs LexTotal PropsLex
  Parser ParserTotal ParserFuel LexGood Asm PropsAsm Load PropsVm.
Local Open Scope Z_scope. Local Open Scope list_scope.

Ltac Zify.zify_post_hook ::= idtac.

(** ** From a script to the end of its execution: bzzparse, bzzasm, the loading of the bytecode and
    buzzvm_execute_script, without C functions. *)
Inductive outcome := NotCompiled | NotAssembled | Undefined | TooLong | Ran (v : vm unit).
Definition of_res {A} (r : res A) (f : A -> outcome) : outcome :=
  match r with Ok a => f a | Hang => TooLong | _ => Undefined end.
Definition run_script (text : list Z) : outcome :=
  of_res (bzzparse (one_file text) 400 [] (bs "script.bzz")) (fun p =>
  match p with
  | None => NotCompiled
  | Some asm =>
      of_res (buzz_asm no_strtof asm) (fun '(err, code, _) =>
      if err =? 0 then
        of_res (load_code [] no_pow code 100 (vm_new tt)) (fun '(v, _) =>
        of_res (execute_script [] no_pow (byte code) (zlen code) 1000 v) Ran)
      else NotAssembled)
  end).
(** The value of a global variable. *)
Definition var_of (v : vm unit) (name : list Z) : option obj :=
  let ids := filter (fun i => match sm_get (v_str v) i with Some s => if list_eq_dec Z.eq_dec s name then true else false | None => false end)
               (map Z.of_nat (seq 0 30)) in
  match ids with i :: _ => gsym_get (v_gsyms v) i | [] => None end.
(** The script runs to its end, and the variable has that value. *)
Definition leaves (text : list Z) (name : list Z) (o : obj) : Prop :=
  exists v, run_script text = Ran v /\ v_state v = S_DONE /\ var_of v name = Some o.
Definition asm_of (text : list Z) : res (option (list Z)) := bzzparse (one_file text) 400 [] (bs "script.bzz").

(** ** C86: the compiler finishes, with defined behaviour *)

(** For every script, whatever it includes: the compiler ends.  [files] and [L] as in C54_terminates.
    Behaviour is undefined only (1) when the lexer meets a backslash (C84), (2) when an error is
    reported after all the text has been read, (3) when a function was declared whose symbol has been
    replaced later.  The three do occur: see below, and C84. *)
Theorem C86_terminates_partial :
  forall open files L syms name,
    (forall n p t, open n = Some (p, t) -> In p files /\ (length t <= L)%nat) ->
    exists fuel,
      match bzzparse open fuel syms name with
      | Ok _ => True
      | UB =>
          (exists nm p t, open nm = Some (p, t) /\ In BSL t) \/
          (exists lx ts, lex_new open name = Some lx /\ all_tokens open fuel lx = Ok (ts, []) /\ parse_script fuel syms ts false = UB) \/
          (exists lx ts lx2 st c s, lex_new open name = Some lx /\ all_tokens open fuel lx = Ok (ts, lx2) /\
             parse_script fuel syms ts (match lx2 with [] => false | _ => true end) = Ok (Some st) /\
             In c (p_chunks st) /\ c_sym c = Some s /\ cs_alive s = false)
      | _ => False
      end.
Proof.
  intros open files L syms name HF. unfold bzzparse. destruct (lex_new open name) as [lx|] eqn:EN; [|exists O; exact I].
  destruct (C54_terminates open files L name lx HF EN) as [n0 [[ts [lx2 HT]]|[HT HB]]].
  2: { exists n0. rewrite HT. left. exact HB. }
  set (more := match lx2 with [] => false | _ => true end).
  assert (HG : Forall good_tok ts) by (eapply all_good; eauto).
  set (fuel := (n0 + 40 * (length ts + 1) + 100)%nat). exists fuel.
  assert (HT2 : all_tokens open fuel lx = Ok (ts, lx2)). { apply (all_mono _ n0); [unfold fuel; lia|exact HT]. }
  rewrite HT2. cbn [bind]. fold more.
  assert (HP : match parse_script fuel syms ts more with Ok _ => True | UB => more = false | _ => False end).
  { unfold parse_script. destruct (next_tok ts) as [t r] eqn:ET. destruct (tok_eqb _ TOK_EOF); [exact I|].
    destruct (next_tok_left ts t r ET) as [HL HGr]. destruct (HGr HG) as [G1 G2].
    set (st := chunk_push _ None). assert (HI : inv st). { split; [discriminate|]. split; [|constructor; auto]. constructor; [apply wf_symtab_new|constructor]. }
    assert (HM : (m st <= length ts)%nat) by exact HL.
    assert (HR : (rank N_statlist <= 100)%nat) by (apply Nat.leb_le; reflexivity).
    pose proof (parse_fine fuel N_statlist st HI ltac:(unfold fuel; lia)) as P. change (p_more st) with more in P.
    destruct (parse fuel N_statlist st) as [[[st2 i]|]| | |]; cbn [fine] in P; auto. }
  unfold compile. destruct (parse_script fuel syms ts more) as [[st|]| | |] eqn:EP; cbn [bind]; auto.
  - unfold write_asm. destruct (registers (p_chunks st)) as [r| | |] eqn:ER; cbn [bind]; auto.
    + clear - ER. exfalso. induction (p_chunks st) as [|c l IH]; [discriminate|]. cbn [registers] in ER. unfold chunk_register in ER.
      destruct (c_sym c) as [x|]; [destruct (cs_alive x)|]; cbn [bind] in ER; try discriminate; destruct (registers l); cbn [bind] in ER; try discriminate; auto.
    + right. right. exists lx, ts, lx2, st.
      assert (HX : exists c s, In c (p_chunks st) /\ c_sym c = Some s /\ cs_alive s = false).
      { clear - ER. induction (p_chunks st) as [|c l IH]; [discriminate|]. cbn [registers] in ER. unfold chunk_register in ER.
        destruct (c_sym c) as [x|] eqn:EX; [destruct (cs_alive x) eqn:EA|]; cbn [bind] in ER; try discriminate.
        - destruct (registers l); cbn [bind] in ER; try discriminate. destruct (IH eq_refl) as (c1 & s & A & B). exists c1, s. split; [right; auto|auto].
        - exists c, x. split; [left; auto|auto].
        - destruct (registers l); cbn [bind] in ER; try discriminate. destruct (IH eq_refl) as (c1 & s & A & B). exists c1, s. split; [right; auto|auto]. }
      destruct HX as (c & s & A & B & D). exists c, s. repeat split; auto.
    + clear - ER. exfalso. induction (p_chunks st) as [|c l IH]; [discriminate|]. cbn [registers] in ER. unfold chunk_register in ER.
      destruct (c_sym c) as [x|]; [destruct (cs_alive x)|]; cbn [bind] in ER; try discriminate; destruct (registers l); cbn [bind] in ER; try discriminate; auto.
  - right. left. exists lx, ts. split; auto. subst more. destruct lx2; [|discriminate]. auto.
Qed.
Print Assumptions C86_terminates_partial.
Example C86_terminates_case : (forall n p t, two_files n = Some (p, t) -> In p [bs "/main"; bs "/lib"] /\ (length t <= 40)%nat) /\
  match bzzparse (one_file (bs "function f(x) { return x + 1 } y = f(3)")) 400 [] [] with Ok (Some _) => True | _ => False end.
Proof. split; [apply C54_terminates_case|vm_compute; exact I]. Qed.

(** More fuel changes nothing: the result in C86 does not depend on it. *)
Theorem C86_fuel :
  forall n k x st r, parse n x st = r -> r <> Hang -> (n <= k)%nat -> parse k x st = r.
Proof. intros. eapply parse_mono; eauto. Qed.
Print Assumptions C86_fuel.
Example C86_fuel_case : parse 1 N_stat (mkP (mkTok TOK_BLOCKCLOSE [] 1 1 []) [] false 0 (pnew 100) [symtab_new] [] []) <> Hang.
Proof. discriminate. Qed.

(** A script that ends with an identifier, or in the middle of a table: the message about the error reads
    the name of a file that has been closed (the element before the first one of an array). *)
Theorem C86_error_at_end_refuted :
  asm_of (bs "x") = UB /\ asm_of (bs "x = {") = UB /\ asm_of (bs "var") = Ok None.
Proof. repeat split; vm_compute; reflexivity. Qed.
Print Assumptions C86_error_at_end_refuted.
(** Declaring a variable with the name of a function frees the symbol the function's code refers to. *)
Theorem C86_variable_named_as_function_refuted :
  asm_of (bs "function f() { } var f = 1") = UB.
Proof. vm_compute. reflexivity. Qed.
Print Assumptions C86_variable_named_as_function_refuted.

(** ** C87: success means that all of the script was compiled *)

(** After a closing brace too many, the rest of the script is ignored: the compiler reports success and the
    program ends with y undefined.  Likewise with a character that is not part of the language,
    when what precedes it is a complete statement. *)
Theorem C87_stray_brace_refuted :
  exists v, run_script (bs "x=1 } y=2") = Ran v /\ v_state v = S_DONE /\ var_of v (bs "x") = Some (OInt 1) /\ var_of v (bs "y") = None.
Proof. eexists. split; [vm_compute; reflexivity|]. repeat split; vm_compute; reflexivity. Qed.
Print Assumptions C87_stray_brace_refuted.
Theorem C87_bad_character_refuted :
  exists v, run_script (bs "x=1 $ y=2") = Ran v /\ v_state v = S_DONE /\ var_of v (bs "x") = Some (OInt 1) /\ var_of v (bs "y") = None.
Proof. eexists. split; [vm_compute; reflexivity|]. repeat split; vm_compute; reflexivity. Qed.
Print Assumptions C87_bad_character_refuted.

(** ** C88: a return at the end of a line returns nothing *)
(** The statement on the next line is taken as the value to return. *)
Theorem C88_return_refuted :
  leaves (bs "function g() { return 7 } function f(c) { if(c) return" ++ [NL] ++ bs "g() } x = f(1)") (bs "x") (OInt 7).
Proof. eexists. split; [vm_compute; reflexivity|]. split; vm_compute; reflexivity. Qed.
Print Assumptions C88_return_refuted.

(** ** C89: blocks outside functions *)
(** A closure made in a block outside functions does not see its argument; the same closure made outside
    the block does. *)
Theorem C89_lambda_in_block_refuted :
  leaves (bs "f = function(x) { return x } y = f(5)") (bs "y") (OInt 5) /\
  leaves (bs "if(1) { f = function(x) { return x } } y = f(5)") (bs "y") ONil.
Proof. split; eexists; (split; [vm_compute; reflexivity|]); split; vm_compute; reflexivity. Qed.
Print Assumptions C89_lambda_in_block_refuted.
(** A local variable in a block outside functions: the virtual machine writes through a null pointer. *)
Theorem C89_var_in_block_refuted :
  run_script (bs "if(1) { var x = 1 }") = Undefined /\ (exists t, asm_of (bs "if(1) { var x = 1 }") = Ok (Some t)).
Proof. split; [vm_compute; reflexivity|]. eexists. vm_compute. reflexivity. Qed.
Print Assumptions C89_var_in_block_refuted.

(** ** C90: an empty script *)
Theorem C90_empty_script_refuted :
  exists v, run_script (bs "# nothing") = Ran v /\ v_state v = S_ERROR /\ v_error v = E_PC.
Proof. eexists. split; [vm_compute; reflexivity|]. split; vm_compute; reflexivity. Qed.
Print Assumptions C90_empty_script_refuted.

(** ** C91: parameters *)
(** A closure inside a function whose parameter has the name of a local variable of the function: the
    parameter is not seen, the variable is. *)
Theorem C91_parameter_refuted :
  leaves (bs "function f(a) { var g = function(b) { return b } return g(2) } y = f(1)") (bs "y") (OInt 2) /\
  leaves (bs "function f(a) { var g = function(a) { return a } return g(2) } y = f(1)") (bs "y") (OInt 1).
Proof. split; eexists; (split; [vm_compute; reflexivity|]); split; vm_compute; reflexivity. Qed.
Print Assumptions C91_parameter_refuted.

(** ** C92: a constant instead of a variable with that value *)
(** The sign of a constant is part of the constant; the sign of anything else applies to the result of
    the operators ^, <<, >>, & and | after it. *)
Theorem C92_sign_refuted :
  leaves (bs "x = 5 y = -x&6") (bs "y") (OInt (-4)) /\ leaves (bs "y = -5&6") (bs "y") (OInt 2).
Proof. split; eexists; (split; [vm_compute; reflexivity|]); split; vm_compute; reflexivity. Qed.
Print Assumptions C92_sign_refuted.
