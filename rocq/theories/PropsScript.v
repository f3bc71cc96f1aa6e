(** From the script file to the result (C94); the meaning of a script is one (C95). *)
From Coq Require Import String.
From Verif Require Import Base ListLemmas Float Dict PDict Strman Obj Instr Vm VmSpec VmProofs Text Lex LexSpec LexProofs Asm AsmSpec AsmProofs Load Parser Source CompileSpec PgBase PgScript GenOk Meaning PropsLex PropsCompile.
Local Open Scope Z_scope. Local Open Scope list_scope.

(** ** The tokens of a file *)
Definition lexed (t : token) : Prop := t_type t <> TOK_EOF /\ 0 <= t_line t /\ 0 <= t_col t /\ Forall (fun c => c <> NL /\ c <> 0) (t_value t).
Lemma class_ok (p : Z -> bool) r : (forall c, p c = true -> c <> NL /\ c <> 0) -> forallb p r = true -> Forall (fun c => c <> NL /\ c <> 0) r.
Proof. intros H HF. apply Forall_forall. intros c Hc. rewrite forallb_forall in HF. auto. Qed.
Lemma letter_ok c : letter c = true -> c <> NL /\ c <> 0.
Proof. intro H. unfold letter in H. split; intros ->; vm_compute in H; discriminate. Qed.
Lemma digit_ok c : digit c = true -> c <> NL /\ c <> 0.
Proof. intro H. unfold digit in H. split; intros ->; vm_compute in H; discriminate. Qed.
Lemma word_ok c : word_char c = true -> c <> NL /\ c <> 0.
Proof. intro H. unfold word_char in H. split; intros ->; vm_compute in H; discriminate. Qed.
Lemma number_ok c : number_char c = true -> c <> NL /\ c <> 0.
Proof. intro H. unfold number_char in H. split; intros ->; vm_compute in H; discriminate. Qed.
Definition charsb (s : list Z) : bool := forallb (fun c => negb (c =? NL) && negb (c =? 0)) s.
Lemma charsb_ok s : charsb s = true -> Forall (fun c => c <> NL /\ c <> 0) s.
Proof. apply class_ok. intros c H. apply andb_true_iff in H as [A B]. apply negb_true_iff, Z.eqb_neq in A. apply negb_true_iff, Z.eqb_neq in B. auto. Qed.
Definition not_eof (ty : toktype) : bool := match ty with TOK_EOF => false | _ => true end.
Lemma spelled_ok ty v txt : LexSpec.spells ty v txt -> ty <> TOK_EOF /\ Forall (fun c => c <> NL /\ c <> 0) v.
Proof.
  intros [c r H1 H2 _ _|w ty' HI|c r H1 H2|q v' HQ HV|txt' ty' v' HI].
  - split; [discriminate|]. constructor; [apply letter_ok, H1|apply (class_ok _ _ word_ok H2)].
  - assert (HB : forallb (fun e => not_eof (snd e) && charsb (fst e)) reserved = true) by (vm_compute; reflexivity). rewrite forallb_forall in HB. specialize (HB _ HI). cbn [fst snd] in HB.
    apply andb_true_iff in HB as [A B]. split; [intros ->; discriminate|apply charsb_ok, B].
  - split; [discriminate|]. constructor; [apply digit_ok, H1|apply (class_ok _ _ number_ok H2)].
  - split; [discriminate|]. eapply Forall_impl; [|exact HV]. cbn. intros c H. tauto.
  - assert (HB : forallb (fun e => not_eof (snd (fst e)) && charsb (snd e)) symbols = true) by (vm_compute; reflexivity). rewrite forallb_forall in HB. specialize (HB _ HI). cbn [fst snd] in HB.
    apply andb_true_iff in HB as [A B]. split; [intros ->; discriminate|apply charsb_ok, B].
Qed.
Lemma reads_lexed open files path before ps ts : reads open files path before ps ts -> Forall lexed ts.
Proof.
  induction 1; auto.
  - constructor; auto. destruct (spelled_ok _ _ _ H) as [A B]. unfold lexed. cbn [t_type t_line t_col t_value]. unfold line_of, column_of. pose proof (zlen_nonneg (filter (Z.eqb NL) before)). pose proof (zlen_nonneg (take_while (fun c => negb (c =? NL)) (rev before))).
    split; auto. split; [lia|]. split; auto.
  - apply Forall_app. auto.
Qed.

(** ** buzzvm_execute_script *)
Lemma execute_steps X flist powf code size k : forall (v v' : vm X) fuel, vm_steps flist powf code size k v = Ok v' -> v_state v' <> S_READY -> (S k <= fuel)%nat ->
  execute_script flist powf code size fuel v = Ok v'.
Proof.
  induction k as [|k IH]; intros v v' fuel H HS HF; (destruct fuel as [|fuel]; [lia|]); cbn [execute_script].
  - cbn [vm_steps] in H. injection H as <-. pose proof (steps_stopped flist powf code size 1 v HS) as E. cbn [vm_steps] in E. destruct (vm_step flist powf code size v) as [v1| | |]; cbn [bind] in *; try discriminate.
    injection E as ->. destruct (v_state v); cbn [is_ready]; congruence.
  - cbn [vm_steps] in H. destruct (vm_step flist powf code size v) as [v1| | |]; cbn [bind] in *; try discriminate. destruct (is_ready (v_state v1)) eqn:E.
    + apply IH; auto. lia.
    + rewrite steps_stopped in H; [congruence|]. intro E2. rewrite E2 in E. discriminate.
Qed.
Lemma execute_goes_on X flist powf code size fuel : forall (v : vm X), (forall k, exists v', vm_steps flist powf code size k v = Ok v' /\ v_state v' = S_READY) ->
  execute_script flist powf code size fuel v = Hang.
Proof.
  induction fuel as [|fuel IH]; intros v H; [reflexivity|]. cbn [execute_script]. destruct (H 1%nat) as (v1 & E & HR). cbn [vm_steps] in E. destruct (vm_step flist powf code size v) as [v0| | |] eqn:EV; cbn [bind] in *; try discriminate.
  injection E as ->. rewrite HR. cbn [is_ready]. apply IH. intro k. destruct (H (S k)) as (v2 & E2 & HR2). cbn [vm_steps] in E2. rewrite EV in E2. cbn [bind] in E2. eauto.
Qed.

Lemma no_c_keeps X strtof powf sid ref fns n l (st st' : sst X) : run strtof powf sid ref fns no_c n l st = Done st' -> s_str st' = s_str st /\ s_ext st' = s_ext st.
Proof.
  intro E. pose proof (kp_run strtof powf sid ref fns no_c (fun a b => a = s_str st /\ b = s_ext st) (fun _ _ _ _ => I) n l st (conj eq_refl eq_refl)) as H. rewrite E in H. exact H.
Qed.

(** ** C94 *)
(** What buzzvm_execute_script does when the meaning of the script is [o]: it returns, with the globals and
    the tables of the meaning, or with its error. *)
Definition returns {X} flist powf code (sid : str -> Z) (ws : list str) (v : vm X) (o : out (sst X)) : Prop :=
  match o with
  | Done st => exists k v', (forall fuel, (k <= fuel)%nat -> execute_script flist powf (byte code) (zlen code) fuel v = Ok v') /\
      v_state v' = S_DONE /\ v_error v' = E_NONE /\ (forall x, In x ws -> global v' (sid x) = s_glob st x) /\ v_heap v' = s_heap st /\
      v_stacks v' = [[]] /\ v_ext v' = v_ext v
  | Fail e => exists k v', (forall fuel, (k <= fuel)%nat -> execute_script flist powf (byte code) (zlen code) fuel v = Ok v') /\ v_state v' = S_ERROR /\ v_error v' = e
  | Unspec | More => True
  end.
(** Names of files that the assembly text can carry. *)
Definition plain_path (p : list Z) : Prop := Forall (fun x => x <> COMMA /\ x <> NL /\ x <> BAR /\ x <> 0) p /\ (forall g x, p = g ++ [x] -> isspace x = false).

(** A script in a file, and in the files it includes, laid out in any way as the tokens [ts] of a
    program [l]: the compiler writes the assembly text, the assembler writes the bytes, the VM loads them, and
    executing the script gives what the language says, or never returns when the language runs the script
    forever. *)
Theorem C94_script_file :
  forall strtof open name path text ps ts l,
  open name = Some (path, text) -> text ++ [NL] = layout ps -> reads open [path] path [] ps ts ->
  (forall t, In t ts -> t_line t < 2 ^ 63 /\ t_col t < 2 ^ 63 /\ plain_path (t_file t)) ->
  spells_script ts l -> ok_script strtof l = true ->
  NoDup (map fn_id (functions l)) -> zlen (nodup (list_eq_dec Z.eq_dec) (words l)) <= 65535 ->
  exists k0 asm, (forall k, (k0 <= k)%nat -> bzzparse open k [] name = Ok (Some asm)) /\
  (zlen asm < 2 ^ 31 ->
   exists code dbg sid ref,
     buzz_asm strtof asm = Ok (0, code, dbg) /\
     (forall f h, In f (functions l) -> In h (functions l) -> ref (fn_id f) = ref (fn_id h) -> f = h) /\
     exists m, forall X (x : X) flist powf fuel, (m <= fuel)%nat ->
     exists v, load_code flist powf code fuel (vm_new x) = Ok (v, true) /\
       (forall s, In s (words l) -> sm_get (v_str v) (sid s) = Some s) /\
       (forall n, returns flist powf code sid (words l) v (run strtof powf sid ref (functions l) no_c n l (start ref l (v_str v) x))) /\
       ((forall n, run strtof powf sid ref (functions l) no_c n l (start ref l (v_str v) x) = More) ->
        forall fuel, execute_script flist powf (byte code) (zlen code) fuel v = Hang)).
Proof.
  intros strtof open name path text ps ts l HO HT HR HP HS HOK HID HW.
  destruct (C54_tokens_partial open name path text ps ts HO HT HR) as (lx & n0 & HN & HL).
  assert (HF : Forall fine_token (filter no_statend ts)).
  { apply Forall_forall. intros t Ht. apply filter_In in Ht. destruct Ht as [Ht Hs]. pose proof (reads_lexed _ _ _ _ _ _ HR) as HX. rewrite Forall_forall in HX. destruct (HX t Ht) as (A & B & C & D).
    destruct (HP t Ht) as (P1 & P2 & P3 & P4). split; auto. split; [intro E; unfold no_statend in Hs; rewrite E in Hs; discriminate|]. split; auto. cbn [dbg_ok]. split; [lia|]. split; [lia|]. split; auto. }
  destruct (C53_compiled_script strtof ts false l HS HOK HF HID HW) as (k0 & asm & HC & H). exists (Nat.max n0 k0), asm. split.
  { intros k Hk. unfold bzzparse. rewrite HN, HL by lia. cbn [bind]. apply HC. lia. }
  intro HA. destruct (H HA) as (code & dbg & sid & ref & H1 & H2 & m & H3). exists code, dbg, sid, ref. split; auto. split; auto. exists m. intros X x flist powf fuel Hf.
  destruct (H3 X x flist powf fuel Hf) as (v & V1 & V2 & V3 & V4 & V5 & V6 & HD). exists v. split; auto. split; auto. split.
  - intro n. specialize (HD n). destruct (run strtof powf sid ref (functions l) no_c n l (start ref l (v_str v) x)) as [st|e| |] eqn:ER; cbn [returns does] in *; auto.
    + destruct HD as (k & v' & D1 & D2 & D3 & D4 & D5 & D6 & D7 & D8 & D9). apply no_c_keeps in ER as [_ ER]. cbn [start s_ext] in ER. exists (S k), v'. split; [intros f Hff; eapply execute_steps; eauto; congruence|]. do 5 (split; auto). congruence.
    + destruct HD as (k & v' & D1 & D2 & D3). exists (S k), v'. split; [|auto]. intros f Hff. eapply execute_steps; eauto. congruence.
  - intros HM f. apply execute_goes_on. eapply C53_never_stops with (o := fun n => run strtof powf sid ref (functions l) no_c n l (start ref l (v_str v) x)); [exact HD|exact HM].
Qed.
Print Assumptions C94_script_file.

(** A file "main" that includes "lib": the tokens are those of "y = 6" and "x = y * 7". *)
Definition lib_file (name : list Z) : option (list Z * list Z) :=
  if list_eq_dec Z.eq_dec name (bs "main") then Some (bs "/main", bs "include 'lib' # y" ++ [NL] ++ bs "x = y*7")
  else if list_eq_dec Z.eq_dec name (bs "lib") then Some (bs "/lib", bs "y=6")
  else None.
Definition file_pieces : list piece :=
  [ Include [32] 39 (bs "lib"); Blank 32; Comment (bs " y");
    Token TOK_ID (bs "x") (bs "x"); Blank 32; Token TOK_ASSIGN [] (bs "="); Blank 32; Token TOK_ID (bs "y") (bs "y"); Token TOK_MULDIV (bs "*") (bs "*");
    Token TOK_CONST (bs "7") (bs "7"); Token TOK_STATEND [] [NL] ].
Definition file_lib : list piece := [ Token TOK_ID (bs "y") (bs "y"); Token TOK_ASSIGN [] (bs "="); Token TOK_CONST (bs "6") (bs "6"); Token TOK_STATEND [] [NL] ].
Definition file_tokens : list token :=
  [ mkTok TOK_ID (bs "y") 1 0 (bs "/lib"); mkTok TOK_ASSIGN [] 1 1 (bs "/lib"); mkTok TOK_CONST (bs "6") 1 2 (bs "/lib"); mkTok TOK_STATEND [] 1 3 (bs "/lib") ] ++
  [ mkTok TOK_ID (bs "x") 2 0 (bs "/main"); mkTok TOK_ASSIGN [] 2 2 (bs "/main"); mkTok TOK_ID (bs "y") 2 4 (bs "/main"); mkTok TOK_MULDIV (bs "*") 2 5 (bs "/main");
    mkTok TOK_CONST (bs "7") 2 6 (bs "/main"); mkTok TOK_STATEND [] 2 7 (bs "/main") ].
Definition file_script : stats :=
  Ss_cons (S_assign (bs "y") (E_num (bs "6"))) (Ss_cons (S_assign (bs "x") (E_bin B_mul (E_var (bs "y")) (E_num (bs "7")))) Ss_nil).
Definition file_asm : list Z := match bzzparse lib_file 200 [] (bs "main") with Ok (Some t) => t | _ => [] end.
Example C94_file_case :
  exists text, lib_file (bs "main") = Some (bs "/main", text) /\ text ++ [NL] = layout file_pieces /\ reads lib_file [bs "/main"] (bs "/main") [] file_pieces file_tokens /\
  (forall t, In t file_tokens -> t_line t < 2 ^ 63 /\ t_col t < 2 ^ 63 /\ plain_path (t_file t)) /\
  spells_script file_tokens file_script /\ ok_script no_strtof_ file_script = true /\ NoDup (map fn_id (functions file_script)) /\
  zlen (nodup (list_eq_dec Z.eq_dec) (words file_script)) <= 65535 /\
  (bzzparse lib_file 200 [] (bs "main") = Ok (Some file_asm) /\ zlen file_asm < 2 ^ 31) /\
  match run no_strtof_ no_powf (fun s => zlen s) (fun i => i) (functions file_script) (@no_c unit) 0 file_script (start (fun i => i) file_script sm_new tt) with
  | Done st => s_glob st (bs "x") = OInt 42
  | _ => False
  end.
Proof.
  eexists. split; [vm_compute; reflexivity|]. split; [vm_compute; reflexivity|]. split.
  { unfold file_pieces, file_tokens. eapply reads_include with (path2 := bs "/lib") (ps2 := file_lib).
    - repeat constructor.
    - vm_compute. tauto.
    - repeat constructor; vm_compute; discriminate.
    - reflexivity.
    - vm_compute. intuition discriminate.
    - reflexivity.
    - unfold file_lib. do 4 read_token. apply reads_end.
    - apply reads_blank; [left; reflexivity|]. apply reads_comment; [vm_compute; intuition discriminate|].
      read_token. apply reads_blank; [left; reflexivity|]. read_token. apply reads_blank; [left; reflexivity|]. do 4 read_token. apply reads_end. }
  split.
  { assert (P1 : plain_path (bs "/lib")).
    { split; [repeat constructor; discriminate|]. intros g x E. change (bs "/lib") with (bs "/li" ++ [98]) in E. apply app_inj_tail in E as [_ <-]. reflexivity. }
    assert (P2 : plain_path (bs "/main")).
    { split; [repeat constructor; discriminate|]. intros g x E. change (bs "/main") with (bs "/mai" ++ [110]) in E. apply app_inj_tail in E as [_ <-]. reflexivity. }
    intros t Ht. unfold file_tokens in Ht. cbn [app In] in Ht. repeat (destruct Ht as [<-|Ht]; [cbn [t_line t_col t_file]; split; [reflexivity|split; [reflexivity|assumption]]|]). destruct Ht. }
  split.
  { exists 0%nat. split; [|discriminate].
    pose proof (c_assign (mkTok TOK_ID (bs "y") 1 0 (bs "/lib")) (mkTok TOK_ASSIGN [] 1 1 (bs "/lib")) 13 [mkTok TOK_CONST (bs "6") 1 2 (bs "/lib")] (E_num (bs "6")) eq_refl eq_refl) as C1.
    pose proof (c_assign (mkTok TOK_ID (bs "x") 2 0 (bs "/main")) (mkTok TOK_ASSIGN [] 2 2 (bs "/main")) 13
      [mkTok TOK_ID (bs "y") 2 4 (bs "/main"); mkTok TOK_MULDIV (bs "*") 2 5 (bs "/main"); mkTok TOK_CONST (bs "7") 2 6 (bs "/main")] (E_bin B_mul (E_var (bs "y")) (E_num (bs "7"))) eq_refl eq_refl) as C2.
    refine (ss_more _ 0 _ _ 0 _ (s_cmd _ _ (C1 _)) _ (ss_one _ 0 _ (s_cmd _ _ (C2 _)))); [|discriminate|].
    - apply (down 4 12); try lia. apply (g_num (mkTok TOK_CONST (bs "6") 1 2 (bs "/lib"))). reflexivity.
    - apply (down 4 6); try lia.
      apply (g_chain 6 13 13 [mkTok TOK_ID (bs "y") 2 4 (bs "/main")] (mkTok TOK_MULDIV (bs "*") 2 5 (bs "/main")) [mkTok TOK_CONST (bs "7") 2 6 (bs "/main")] B_mul (E_var (bs "y")) (E_num (bs "7"))); [lv| |inop|reflexivity|lia|].
      + apply (down 6 12); try lia. apply g_ref. apply (r_var (mkTok TOK_ID (bs "y") 2 4 (bs "/main"))). reflexivity.
      + apply (down 7 12); try lia. apply (g_num (mkTok TOK_CONST (bs "7") 2 6 (bs "/main"))). reflexivity. }
  split; [vm_compute; reflexivity|]. split; [constructor|]. split; [vm_compute; discriminate|]. split; [split; vm_compute; reflexivity|]. vm_compute. reflexivity.
Qed.

(** ** C95 *)
(** The number of calls and iterations allowed for decides only whether there is a result, not which one:
    a script has at most one meaning. *)
Theorem C95_one_meaning :
  forall X strtof powf sid ref fns cfun l (st : sst X) n m,
  run strtof powf sid ref fns cfun n l st <> More -> run strtof powf sid ref fns cfun m l st <> More ->
  run strtof powf sid ref fns cfun n l st = run strtof powf sid ref fns cfun m l st.
Proof. intros. apply run_one; auto. Qed.
Print Assumptions C95_one_meaning.
(** And allowing for more never takes a result away. *)
Theorem C95_more_allowed :
  forall X strtof powf sid ref fns cfun l (st : sst X) n m, (n <= m)%nat ->
  run strtof powf sid ref fns cfun n l st <> More -> run strtof powf sid ref fns cfun m l st = run strtof powf sid ref fns cfun n l st.
Proof. intros X strtof powf sid ref fns cfun l st n m H HM. destruct (run_mono strtof powf sid ref fns cfun n m l st H); congruence. Qed.
Print Assumptions C95_more_allowed.
(** The script of [C53_script_case]: 3 calls and iterations are not enough, 20 are. *)
Example C95_case : let go n := run no_strtof_ no_powf (fun s => zlen s) (fun i => i) (functions script) (@no_c unit) n script (start (fun i => i) script sm_new tt) in
  go 3%nat = More /\ go 20%nat <> More.
Proof. split; [vm_compute; reflexivity|vm_compute; discriminate]. Qed.
