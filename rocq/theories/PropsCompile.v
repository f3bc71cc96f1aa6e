(** Compiled scripts do what the language says (C52, C53): the whole way from the tokens of a script over
    the assembly text and the bytes to the execution by the VM. *)
From Coq Require Import String.
From Verif Require Import Base ListLemmas Float Dict PDict Strman Obj Instr Vm VmSpec VmProofs Text Lex Asm AsmSpec AsmProofs Load Parser Source CompileSpec Gen PgBase PgScript GenOk GenRun GenWords GenSim GcSpec PgSym ObjProofs.
Local Open Scope Z_scope. Local Open Scope list_scope.

Lemma no_c_ok X (flist : list (vm X -> res (vm X))) sm_ok : c_functions flist sm_ok no_c.
Proof. split; [reflexivity|]. intros. exact I. Qed.
Lemma path_more X flist powf code size fine (Q R : vm X -> Prop) sid ws v n o : (forall w, Q w -> R w) -> does_path flist powf code size fine Q sid ws v n o -> does_path flist powf code size fine R sid ws v n o.
Proof. intro H. destruct o; cbn [does_path]; auto. intros (k & v' & H1 & H2 & H3 & H4 & H5 & H6 & H7 & H8 & H9 & H10). exists k, v'. auto 12. Qed.
(** The whole way, with what is needed to run the script with the collector. *)
Lemma compiled :
  forall strtof toks more l,
  spells_script toks l -> ok_script strtof l = true -> Forall fine_token (filter no_statend toks) ->
  NoDup (map fn_id (functions l)) -> zlen (nodup (list_eq_dec Z.eq_dec) (words l)) <= 65535 ->
  exists k0 t, (forall k, (k0 <= k)%nat -> compile k [] toks more = Ok (Some t)) /\
  (zlen t < 2 ^ 31 ->
   exists code dbg sid ref,
     buzz_asm strtof t = Ok (0, code, dbg) /\
     (forall f h, In f (functions l) -> In h (functions l) -> ref (fn_id f) = ref (fn_id h) -> f = h) /\
     (forall s, In s (words l) -> 0 <= sid s < 65536) /\
     exists m, forall X (x : X) flist powf fuel, (m <= fuel)%nat ->
     exists v, load_code flist powf code fuel (vm_new x) = Ok (v, true) /\
       (forall s, In s (words l) -> sm_get (v_str v) (sid s) = Some s) /\
       v_state v = S_READY /\ v_stacks v = [[]] /\ v_lsymts v = [] /\ v_ext v = x /\
       prepared (eq (v_str v)) sid (words l) v v (start ref l (v_str v) x) /\ (zlen (nodup (list_eq_dec Z.eq_dec) (words l)) <= 65534 -> strings_ok (v_str v)) /\
       (forall n, does_path flist powf (byte code) (zlen code) (fun w => zlen (nodup (list_eq_dec Z.eq_dec) (words l)) <= 65534 -> gc_fine (byte code) w) (fun _ => True) sid (words l) v n
         (run strtof powf sid ref (functions l) no_c n l (start ref l (v_str v) x))) /\
       forall sm_ok cfun, c_functions flist sm_ok cfun ->
       (forall v1 st, prepared sm_ok sid (words l) v v1 st ->
         forall n, does_path flist powf (byte code) (zlen code) (fun _ => True) (ended (byte code) (zlen code) sm_ok) sid (words l) v1 n (run strtof powf sid ref (functions l) cfun n l st)) /\
       (forall v2 st r cap vs p s S F n, 0 <= p < zlen code ->
          v_state v2 = S_READY -> v_pc v2 = r -> v_stacks v2 = [] :: (OInt p :: s) :: S -> v_lsymts v2 = mkLs (map Some (cap ++ vs)) false :: F ->
          (forall f, In f F -> ~ In None (ls_syms f)) -> agrees sm_ok sid (words l) v2 st ->
          match call (at_most strtof powf sid ref (functions l) cfun (Datatypes.S n)) (OClos true r cap) vs st with
          | Done (x, st') => exists k v', vm_steps flist powf (byte code) (zlen code) k v2 = Ok v' /\ v_state v' = S_READY /\ v_pc v' = p /\
              v_stacks v' = (x :: s) :: S /\ v_lsymts v' = F /\ agrees sm_ok sid (words l) v' st'
          | Fail e => exists k v', vm_steps flist powf (byte code) (zlen code) k v2 = Ok v' /\ v_state v' = S_ERROR /\ v_error v' = e
          | Unspec => True
          | More => exists k v', (n <= k)%nat /\ vm_steps flist powf (byte code) (zlen code) k v2 = Ok v' /\ v_state v' = S_READY
          end)).
Proof.
  intros strtof toks more l HS HO HT HID HW. destruct (script_words l) as (W1 & W2 & W3). rewrite <- W3 in HW.
  destruct (compile_text strtof toks more l HS HO HT HW) as (k0 & p & HC & HM & HD & _ & HCh). exists k0, (text p). split; [exact HC|]. intro HT2. pose proof (text_long p) as HLn.
  destruct (program_ok strtof l p HO HM HD HW HCh ltac:(lia)) as (P1 & P2 & P3 & _ & P5).
  destruct (asm_ok strtof p P1 P2) as (env & HE & HAsm). exists (code_bytes strtof env p), (debug_records 0 p), (sid (g_strs (snd (gen_script l)))), (fref l env).
  assert (HE' : forall name a, defined_at (gen_program l) name a -> env name = a) by (intros name a H; apply HE, nodbg_defined; rewrite HM; exact H).
  assert (HA : address (gen_program l) < 2 ^ 31) by (rewrite <- HM, nodbg_address; lia).
  rewrite <- (nodbg_bytes strtof env p), HM in HAsm |- *. split; [exact HAsm|]. split; [apply (fref_inj strtof); auto|].
  split. { intros s Hs. apply W2 in Hs. apply index_in in Hs as [q Hq]. unfold sid. rewrite Hq. apply index_range in Hq. lia. }
  exists (S (3 * length (gdefs (snd (gen_script l))))). intros X x flist powf fuel HF. rewrite <- W3.
  destruct (run_script strtof l env HO HE' HW HA) with (X := X) (x := x) (flist := flist) (powf := powf) (fuel := fuel) as (v & V1 & V2 & V3 & V4 & V5 & V6 & V7 & V7' & V8 & V9); auto.
  exists v. do 8 (split; auto). split.
  - intro n. eapply path_more; [|apply (V9 (eq (v_str v)) no_c v (start (fref l env) l (v_str v) x) (fun w => zlen (g_strs (snd (gen_script l))) <= 65534 -> gc_fine (byte (code_bytes strtof env (gen_program l))) w)); auto using no_c_ok]. auto.
  - intros sm_ok cfun Hc. split.
    + intros v1 st HPr n. apply (V9 sm_ok cfun v1 st (fun _ => True)); auto.
    + intros v2 st r cap vs p1 s S F n. apply (run_call strtof l env HO HE' HW HA); auto.
Qed.
(** A script that follows the rules of the language is compiled to a text; the text, when it is shorter
    than 2 GiB, is assembled to bytes; the bytes are loaded; and executing them does what the script
    means.  [sid] gives the identifiers of the texts of the script, [ref] those of its functions.  *)
Theorem C53_compiled_script :
  forall strtof toks more l,
  spells_script toks l -> ok_script strtof l = true -> Forall fine_token (filter no_statend toks) ->
  NoDup (map fn_id (functions l)) -> zlen (nodup (list_eq_dec Z.eq_dec) (words l)) <= 65535 ->
  exists k0 t, (forall k, (k0 <= k)%nat -> compile k [] toks more = Ok (Some t)) /\
  (zlen t < 2 ^ 31 ->
   exists code dbg sid ref,
     buzz_asm strtof t = Ok (0, code, dbg) /\
     (forall f h, In f (functions l) -> In h (functions l) -> ref (fn_id f) = ref (fn_id h) -> f = h) /\
     exists m, forall X (x : X) flist powf fuel, (m <= fuel)%nat ->
     exists v, load_code flist powf code fuel (vm_new x) = Ok (v, true) /\
       (forall s, In s (words l) -> sm_get (v_str v) (sid s) = Some s) /\
       v_state v = S_READY /\ v_stacks v = [[]] /\ v_lsymts v = [] /\ v_ext v = x /\
       forall n, does flist powf (byte code) (zlen code) sid (words l) v n (run strtof powf sid ref (functions l) no_c n l (start ref l (v_str v) x))).
Proof.
  intros strtof toks more l HS HO HT HID HW. destruct (compiled strtof toks more l HS HO HT HID HW) as (k0 & t & HC & H). exists k0, t. split; auto.
  intro HT2. destruct (H HT2) as (code & dbg & sid & ref & H1 & HI & _ & m & H2). exists code, dbg, sid, ref. split; auto. split; auto. exists m. intros X x flist powf fuel HF.
  destruct (H2 X x flist powf fuel HF) as (v & V1 & V2 & V3 & V4 & V5 & V6 & _ & _ & HD & _). exists v. do 6 (split; auto). intro n. eapply path_does. apply HD.
Qed.
Print Assumptions C53_compiled_script.

(** The value of an expression: after the statements [l0], [x = e] stores in the global variable [x] the value
    that the language gives to [e], and the operand stack is empty again. *)
Fixpoint snoc (l : stats) (s : stat) : stats := match l with Ss_nil => Ss_cons s Ss_nil | Ss_cons a r => Ss_cons a (snoc r s) end.
Lemma exec_snoc X strtof powf sid ref (next : @rest X) s l0 : forall l st l1 st1, exec_all strtof powf sid ref next l0 l st = Done (None, l1, st1) ->
  exec_all strtof powf sid ref next (snoc l0 s) l st = exec_all strtof powf sid ref next (Ss_cons s Ss_nil) l1 st1.
Proof.
  induction l0 as [|a r IH]; intros l st l1 st1 H.
  - change (Done (@None obj, l, st) = Done (None, l1, st1)) in H. injection H as <- <-. reflexivity.
  - change (then_ (exec strtof powf sid ref next a l st) (exec_all strtof powf sid ref next r) = Done (None, l1, st1)) in H.
    change (then_ (exec strtof powf sid ref next a l st) (exec_all strtof powf sid ref next (snoc r s)) = exec_all strtof powf sid ref next (Ss_cons s Ss_nil) l1 st1).
    unfold then_ in *. destruct (exec strtof powf sid ref next a l st) as [[[[o|] l'] st']| | |]; cbn [obind] in *; try discriminate. apply IH. exact H.
Qed.
Lemma words_snoc l0 x e : forall sc, match sc with Local _ => False | _ => True end -> In x (words_ss sc (snoc l0 (S_assign x e))).
Proof.
  induction l0 as [|a r IH]; intros sc Hs; cbn [snoc words_ss].
  - apply in_or_app. left. cbn [words_s]. apply in_or_app. left. destruct sc; [left|left|destruct Hs]; reflexivity.
  - apply in_or_app. right. apply IH. destruct a, sc; cbn [after declare]; auto.
Qed.
Theorem C52_expression_value :
  forall strtof toks more l0 x e,
  let l := snoc l0 (S_assign x e) in
  spells_script toks l -> ok_script strtof l = true -> Forall fine_token (filter no_statend toks) ->
  NoDup (map fn_id (functions l)) -> zlen (nodup (list_eq_dec Z.eq_dec) (words l)) <= 65535 ->
  exists k0 t, (forall k, (k0 <= k)%nat -> compile k [] toks more = Ok (Some t)) /\
  (zlen t < 2 ^ 31 ->
   exists code dbg sid ref,
     buzz_asm strtof t = Ok (0, code, dbg) /\
     exists m, forall X (x0 : X) flist powf fuel, (m <= fuel)%nat ->
     exists v, load_code flist powf code fuel (vm_new x0) = Ok (v, true) /\
       (forall s, In s (words l) -> sm_get (v_str v) (sid s) = Some s) /\
       forall n st o st',
       exec_all strtof powf sid ref (at_most strtof powf sid ref (functions l) no_c n) l0 [] (start ref l (v_str v) x0) = Done (None, [], st) ->
       eval strtof powf sid ref (at_most strtof powf sid ref (functions l) no_c n) e [] st = Done (o, st') ->
       exists k v', vm_steps flist powf (byte code) (zlen code) k v = Ok v' /\ v_state v' = S_DONE /\ v_error v' = E_NONE /\
         v_stacks v' = [[]] /\ global v' (sid x) = o /\ v_heap v' = s_heap st' /\
         forall y, In y (words l) -> y <> x -> global v' (sid y) = s_glob st' y).
Proof.
  intros strtof toks more l0 x e l HS HO HT HID HW. destruct (C53_compiled_script strtof toks more l HS HO HT HID HW) as (k0 & t & HC & H). exists k0, t. split; auto.
  intro HT2. destruct (H HT2) as (code & dbg & sid & ref & H1 & _ & m & H2). exists code, dbg, sid, ref. split; auto. exists m. intros X x0 flist powf fuel HF.
  destruct (H2 X x0 flist powf fuel HF) as (v & V1 & V2 & _ & _ & _ & _ & HD). exists v. split; auto. split; auto. intros n st o st' E1 E2. specialize (HD n).
  unfold run, l in HD. rewrite (exec_snoc _ _ _ _ _ _ _ _ _ _ _ _ E1) in HD.
  assert (ES : exec_all strtof powf sid ref (at_most strtof powf sid ref (functions l) no_c n) (Ss_cons (S_assign x e) Ss_nil) [] st = Done (None, [], set_glob st' x o)).
  { change (then_ (obind (eval strtof powf sid ref (at_most strtof powf sid ref (functions l) no_c n) e [] st) (fun '(v, st) => let '(l, st) := assign x v [] st in Done (None, l, st)))
      (exec_all strtof powf sid ref (at_most strtof powf sid ref (functions l) no_c n) Ss_nil) = Done (None, [], set_glob st' x o)). rewrite E2. reflexivity. }
  rewrite ES in HD. cbn [obind does] in HD. destruct HD as (k & v' & D1 & D2 & D3 & D4 & D5 & D6 & _). exists k, v'. split; auto. split; auto. split; auto. split; auto.
  split. { rewrite D4 by (apply words_snoc; exact I). cbn [s_glob set_glob]. unfold same. destruct (list_eq_dec Z.eq_dec x x); congruence. }
  split; auto. intros y Hy Hn. rewrite D4 by auto. cbn [s_glob set_glob]. unfold same. destruct (list_eq_dec Z.eq_dec x y); congruence.
Qed.
Print Assumptions C52_expression_value.

(** A script that the language runs forever is run forever. *)
Lemma ready_before X flist powf code size k : forall k' (v v' : vm X), (k <= k')%nat -> vm_steps flist powf code size k' v = Ok v' -> v_state v' = S_READY ->
  exists v1, vm_steps flist powf code size k v = Ok v1 /\ v_state v1 = S_READY.
Proof.
  intros k' v v' Hk H HR. replace k' with (k + (k' - k))%nat in H by lia. rewrite steps_app in H. destruct (vm_steps flist powf code size k v) as [v1| | |]; cbn [bind] in H; try discriminate.
  exists v1. split; auto. destruct (v_state v1) eqn:E; auto; rewrite steps_stopped in H by congruence; congruence.
Qed.
Theorem C53_never_stops :
  forall X flist powf code size sid ws (v : vm X) (o : nat -> out (sst X)),
  (forall n, does flist powf code size sid ws v n (o n)) -> (forall n, o n = More) ->
  forall k, exists v', vm_steps flist powf code size k v = Ok v' /\ v_state v' = S_READY.
Proof.
  intros X flist powf code size sid ws v o H HM k. specialize (H k). rewrite HM in H. destruct H as (k' & v' & Hk & HS & HR). eapply ready_before; eauto.
Qed.
Print Assumptions C53_never_stops.

(** ** A script: function f(n) { if(n < 2) return 1 return n * f(n - 1) }  i = 0 while(i < 3) i = i + 1 x = f(i + 2) *)
Definition tk (ty : toktype) (s : string) : token := mkTok ty (bs s) 1 1 (bs "a.bzz").
Definition ti := tk TOK_ID. Definition tc := tk TOK_CONST. Definition po := tk TOK_PAROPEN "(". Definition pc := tk TOK_PARCLOSE ")".
Definition script_tokens : list token :=
  [tk TOK_FUN "function"; ti "f"; po; ti "n"; pc; tk TOK_BLOCKOPEN "{";
     tk TOK_IF "if"; po; ti "n"; tk TOK_CMP "<"; tc "2"; pc; tk TOK_RETURN "return"; tc "1";
     tk TOK_RETURN "return"; ti "n"; tk TOK_MULDIV "*"; ti "f"; po; ti "n"; tk TOK_ADDSUB "-"; tc "1"; pc;
   tk TOK_BLOCKCLOSE "}";
   ti "i"; tk TOK_ASSIGN "="; tc "0";
   tk TOK_WHILE "while"; po; ti "i"; tk TOK_CMP "<"; tc "3"; pc; ti "i"; tk TOK_ASSIGN "="; ti "i"; tk TOK_ADDSUB "+"; tc "1";
   ti "x"; tk TOK_ASSIGN "="; ti "f"; po; ti "i"; tk TOK_ADDSUB "+"; tc "2"; pc].
Definition v_ (x : string) := E_var (bs x). Definition n_ (x : string) := E_num (bs x).
Definition script_fun : stats :=
  Ss_cons (S_if (E_bin B_lt (v_ "n") (n_ "2")) (Single (S_returnval (n_ "1"))))
  (Ss_cons (S_returnval (E_bin B_mul (v_ "n") (E_call (v_ "f") (Es_cons (E_bin B_sub (v_ "n") (n_ "1")) Es_nil)))) Ss_nil).
Definition script_start : stats :=
  Ss_cons (S_fun 7 (bs "f") [bs "n"] script_fun) (Ss_cons (S_assign (bs "i") (n_ "0"))
  (Ss_cons (S_while (E_bin B_lt (v_ "i") (n_ "3")) (Single (S_assign (bs "i") (E_bin B_add (v_ "i") (n_ "1"))))) Ss_nil)).
Definition script_last : expr := E_call (v_ "f") (Es_cons (E_bin B_add (v_ "i") (n_ "2")) Es_nil).
Definition script : stats := snoc script_start (S_assign (bs "x") script_last).
Lemma up d lv lim ts e : (lv + d = 12)%nat -> (1 <= lv)%nat -> spells 12 lim ts e -> spells lv lim ts e.
Proof. revert lv. induction d as [|d IH]; intros lv E H HS; [replace lv with 12%nat by lia; auto|]. apply g_up; [lia|]. apply IH; auto; lia. Qed.
Lemma sp_v x lv : (1 <= lv <= 12)%nat -> spells lv 13 [ti x] (v_ x).
Proof. intro H. apply (up (12 - lv)); try lia. apply g_ref. apply (r_var (ti x)). reflexivity. Qed.
Lemma sp_n x lv : (1 <= lv <= 12)%nat -> spells lv 13 [tc x] (n_ x).
Proof. intro H. apply (up (12 - lv)); try lia. apply (g_num (tc x)). reflexivity. Qed.
Ltac inop := unfold infix; cbn; tauto.
Ltac lv := solve [lia | reflexivity | cbn; tauto | inop].
Lemma down a b lim ts e : (1 <= a <= b)%nat -> (b <= 12)%nat -> spells b lim ts e -> spells a lim ts e.
Proof. intros H1 H2 H. remember (b - a)%nat as d eqn:E. revert a H1 E. induction d as [|d IH]; intros a H1 E; [replace a with b by lia; auto|]. apply g_up; [lia|]. apply IH; lia. Qed.
Lemma script_spelled : spells_script script_tokens script.
Proof.
  assert (C1 : spells 1 13 [ti "n"; tk TOK_CMP "<"; tc "2"] (E_bin B_lt (v_ "n") (n_ "2"))).
  { apply (down 1 3); try lia. apply (g_cmp 13 13 [ti "n"] (tk TOK_CMP "<") [tc "2"] B_lt); [apply sp_v; lia|inop|reflexivity|apply sp_n; lia]. }
  assert (A1 : spells 1 13 [ti "n"; tk TOK_ADDSUB "-"; tc "1"] (E_bin B_sub (v_ "n") (n_ "1"))).
  { apply (down 1 5); try lia. apply (g_chain 5 13 13 [ti "n"] (tk TOK_ADDSUB "-") [tc "1"] B_sub); [lv|apply sp_v; lia|inop|reflexivity|lia|apply sp_n; lia]. }
  assert (R1 : spells_ref [ti "f"; po; ti "n"; tk TOK_ADDSUB "-"; tc "1"; pc] (E_call (v_ "f") (Es_cons (E_bin B_sub (v_ "n") (n_ "1")) Es_nil))).
  { apply (r_call [ti "f"] (v_ "f") po [ti "n"; tk TOK_ADDSUB "-"; tc "1"] _ pc); [apply (r_var (ti "f")); reflexivity|reflexivity|eapply a_one; exact A1|reflexivity]. }
  assert (M1 : spells 1 13 [ti "n"; tk TOK_MULDIV "*"; ti "f"; po; ti "n"; tk TOK_ADDSUB "-"; tc "1"; pc] (E_bin B_mul (v_ "n") (E_call (v_ "f") (Es_cons (E_bin B_sub (v_ "n") (n_ "1")) Es_nil)))).
  { apply (down 1 6); try lia. apply (g_chain 6 13 13 [ti "n"] (tk TOK_MULDIV "*") [ti "f"; po; ti "n"; tk TOK_ADDSUB "-"; tc "1"; pc] B_mul); [lv|apply sp_v; lia|inop|reflexivity|lia|].
    apply (down 7 12); try lia. apply g_ref. exact R1. }
  assert (B1 : spells_stats [tk TOK_IF "if"; po; ti "n"; tk TOK_CMP "<"; tc "2"; pc; tk TOK_RETURN "return"; tc "1";
     tk TOK_RETURN "return"; ti "n"; tk TOK_MULDIV "*"; ti "f"; po; ti "n"; tk TOK_ADDSUB "-"; tc "1"; pc] 0 script_fun).
  { apply (ss_more [tk TOK_IF "if"; po; ti "n"; tk TOK_CMP "<"; tc "2"; pc; tk TOK_RETURN "return"; tc "1"] 1 _ [tk TOK_RETURN "return"; ti "n"; tk TOK_MULDIV "*"; ti "f"; po; ti "n"; tk TOK_ADDSUB "-"; tc "1"; pc]); [|discriminate|].
    - apply (s_if (tk TOK_IF "if") po 13 [ti "n"; tk TOK_CMP "<"; tc "2"] _ pc [tk TOK_RETURN "return"; tc "1"] 0); [reflexivity|reflexivity|exact C1|reflexivity|].
      apply b_single, s_cmd. apply (c_return (tk TOK_RETURN "return") 13 [tc "1"]); [reflexivity|apply sp_n; lia].
    - apply ss_one, s_cmd. apply (c_return (tk TOK_RETURN "return") 13); [reflexivity|exact M1]. }
  assert (W1 : spells_stat [tk TOK_WHILE "while"; po; ti "i"; tk TOK_CMP "<"; tc "3"; pc; ti "i"; tk TOK_ASSIGN "="; ti "i"; tk TOK_ADDSUB "+"; tc "1"] 0
     (S_while (E_bin B_lt (v_ "i") (n_ "3")) (Single (S_assign (bs "i") (E_bin B_add (v_ "i") (n_ "1")))))).
  { apply (s_while (tk TOK_WHILE "while") po 13 [ti "i"; tk TOK_CMP "<"; tc "3"] _ pc [ti "i"; tk TOK_ASSIGN "="; ti "i"; tk TOK_ADDSUB "+"; tc "1"] 0); [reflexivity|reflexivity| |reflexivity|].
    - apply (down 1 3); try lia. apply (g_cmp 13 13 [ti "i"] (tk TOK_CMP "<") [tc "3"] B_lt); [apply sp_v; lia|inop|reflexivity|apply sp_n; lia].
    - apply b_single, s_cmd. apply (c_assign (ti "i") (tk TOK_ASSIGN "=") 13); [reflexivity|reflexivity|].
      apply (down 4 5); try lia. apply (g_chain 5 13 13 [ti "i"] (tk TOK_ADDSUB "+") [tc "1"] B_add); [lv|apply sp_v; lia|inop|reflexivity|lia|apply sp_n; lia]. }
  assert (X1 : spells_stat [ti "x"; tk TOK_ASSIGN "="; ti "f"; po; ti "i"; tk TOK_ADDSUB "+"; tc "2"; pc] 0 (S_assign (bs "x") script_last)).
  { apply s_cmd. apply (c_assign (ti "x") (tk TOK_ASSIGN "=") 13); [reflexivity|reflexivity|]. apply (down 4 12); try lia. apply g_ref.
    apply (r_call [ti "f"] (v_ "f") po [ti "i"; tk TOK_ADDSUB "+"; tc "2"] _ pc); [apply (r_var (ti "f")); reflexivity|reflexivity| |reflexivity]. eapply a_one.
    apply (down 1 5); try lia. apply (g_chain 5 13 13 [ti "i"] (tk TOK_ADDSUB "+") [tc "2"] B_add); [lv|apply sp_v; lia|inop|reflexivity|lia|apply sp_n; lia]. }
  pose proof (ss_more _ 0 _ _ 0 _ W1 ltac:(discriminate) (ss_one _ 0 _ X1)) as L1.
  assert (I1 : spells_stat [ti "i"; tk TOK_ASSIGN "="; tc "0"] 0 (S_assign (bs "i") (n_ "0"))).
  { apply s_cmd. apply (c_assign (ti "i") (tk TOK_ASSIGN "=") 13 [tc "0"]); [reflexivity|reflexivity|apply sp_n; lia]. }
  pose proof (ss_more _ 0 _ _ 0 _ I1 ltac:(discriminate) L1) as L2.
  pose proof (s_fun (tk TOK_FUN "function") (ti "f") po [ti "n"] [bs "n"] pc (tk TOK_BLOCKOPEN "{") _ 0 script_fun (tk TOK_BLOCKCLOSE "}") 7
    eq_refl eq_refl eq_refl (p_one (ti "n") eq_refl) eq_refl eq_refl (ss_some _ _ _ B1) eq_refl) as F1.
  pose proof (ss_more _ 0 _ _ 0 _ F1 ltac:(discriminate) L2) as L3. cbn [app] in L3.
  exists 0%nat. split; [exact L3|discriminate].
Qed.
Definition no_powf : libm := lib_with (fun a _ => a).
Definition no_strtof_ (t : list Z) : option Z := None.
Lemma fine_ ty x : ty <> TOK_EOF -> ty <> TOK_STATEND -> forallb (fun c => negb (c =? NL) && negb (c =? 0)) (bs x) = true -> fine_token (tk ty x).
Proof.
  intros H1 H2 H3. repeat split; try discriminate; auto.
  - vm_compute. repeat constructor; discriminate.
  - intros g y E. change (t_file (tk ty x)) with (bs "a.bz" ++ [122]) in E. apply app_inj_tail in E. destruct E as [_ <-]. reflexivity.
  - cbn [t_value tk]. apply Forall_forall. intros c Hc. rewrite forallb_forall in H3. specialize (H3 c Hc). apply andb_true_iff in H3. destruct H3 as [A B].
    apply negb_true_iff, Z.eqb_neq in A. apply negb_true_iff, Z.eqb_neq in B. auto.
Qed.
Definition script_text : str := match compile 1000 [] script_tokens false with Ok (Some t) => t | _ => [] end.
Example C53_script_case :
  spells_script script_tokens script /\ ok_script no_strtof_ script = true /\ Forall fine_token (filter no_statend script_tokens) /\
  NoDup (map fn_id (functions script)) /\ zlen (nodup (list_eq_dec Z.eq_dec) (words script)) <= 65535 /\
  (exists t, compile 1000 [] script_tokens false = Ok (Some t) /\ zlen t < 2 ^ 31) /\
  match run no_strtof_ no_powf (fun s => zlen s) (fun i => i) (functions script) (@no_c unit) 20 script (start (fun i => i) script sm_new tt) with
  | Done st => s_glob st (bs "x") = OInt 120 /\ s_glob st (bs "i") = OInt 3
  | _ => False
  end.
Proof.
  split; [exact script_spelled|]. split; [vm_compute; reflexivity|]. split.
  { change (filter no_statend script_tokens) with script_tokens. unfold script_tokens, po, pc, ti, tc. repeat (apply Forall_cons; [apply fine_; [discriminate|discriminate|reflexivity]|]). constructor. }
  split; [repeat constructor; intros []|]. split; [vm_compute; discriminate|]. split; [|vm_compute; split; reflexivity].
  exists script_text. split; vm_compute; reflexivity.
Qed.
