(** Properties of the lexer: C54, C84, C85. *)
From Coq Require Import String.
From Verif Require Import Base ListLemmas Dict DictProofs Text TextProofs Lex LexSpec LexProofs LexTotal.
Local Open Scope Z_scope. Local Open Scope list_scope.

Ltac Zify.zify_post_hook ::= idtac.

(** ** C54: tokens *)

(** Full statement: the tokens of a script are the ones spelled in it, in order, with the line and the
    column where they are; blanks and comments separate them.  Not proved (refuted below): identifiers
    starting with "include", strings with newlines in them. *)
Theorem C54_tokens_partial :
  forall open name path text ps ts,
    open name = Some (path, text) ->
    text ++ [NL] = layout ps ->
    reads open [path] path [] ps ts ->
    exists lx n0, lex_new open name = Some lx /\ forall n, (n0 <= n)%nat -> all_tokens open n lx = Ok (ts, []).
Proof.
  intros open name path text ps ts HO HT HR.
  destruct (reads_outcome open _ _ _ _ _ HR [] [] []) as [n0 HN]; [reflexivity|split; auto|].
  exists [mkLf path 1 0 (text ++ [NL])], n0. split.
  - unfold lex_new, file_new. rewrite HO. reflexivity.
  - intros n Hn. rewrite app_nil_r in HN. apply (all_mono _ n0); auto. rewrite HT. exact HN.
Qed.
Print Assumptions C54_tokens_partial.

(** A script with a comment, an inclusion and a cycle: "lib" includes "main" again, which is being read. *)
Definition two_files (name : list Z) : option (list Z * list Z) :=
  if list_eq_dec Z.eq_dec name (bs "main") then Some (bs "/main", bs "x=1 # one" ++ [NL] ++ bs "include 'lib'" ++ [NL] ++ bs "y <= x")
  else if list_eq_dec Z.eq_dec name (bs "lib") then Some (bs "/lib", bs "include 'main' z")
  else None.
Definition main_pieces : list piece :=
  [ Token TOK_ID (bs "x") (bs "x"); Token TOK_ASSIGN [] (bs "="); Token TOK_CONST (bs "1") (bs "1"); Blank 32; Comment (bs " one");
    Include [32] 39 (bs "lib"); Token TOK_STATEND [] [NL];
    Token TOK_ID (bs "y") (bs "y"); Blank 32; Token TOK_CMP (bs "<=") (bs "<="); Blank 32; Token TOK_ID (bs "x") (bs "x"); Token TOK_STATEND [] [NL] ].
Definition lib_pieces : list piece :=
  [ Include [32] 39 (bs "main"); Blank 32; Token TOK_ID (bs "z") (bs "z"); Token TOK_STATEND [] [NL] ].
Definition main_tokens : list token :=
  [ mkTok TOK_ID (bs "x") 1 0 (bs "/main"); mkTok TOK_ASSIGN [] 1 1 (bs "/main"); mkTok TOK_CONST (bs "1") 1 2 (bs "/main") ] ++
  [ mkTok TOK_ID (bs "z") 1 15 (bs "/lib"); mkTok TOK_STATEND [] 1 16 (bs "/lib") ] ++
  [ mkTok TOK_STATEND [] 2 13 (bs "/main");
    mkTok TOK_ID (bs "y") 3 0 (bs "/main"); mkTok TOK_CMP (bs "<=") 3 2 (bs "/main"); mkTok TOK_ID (bs "x") 3 5 (bs "/main"); mkTok TOK_STATEND [] 3 6 (bs "/main") ].
Ltac spell_id := apply spells_id; [reflexivity|reflexivity|vm_compute; intuition discriminate|intros s E; vm_compute in E; discriminate E].
Ltac read_token := eapply reads_token; [first [apply spells_symbol; vm_compute; tauto|apply spells_const; reflexivity|spell_id]|reflexivity|].
Ltac read_include := first [solve [repeat constructor]|solve [vm_compute; tauto]|solve [repeat constructor; vm_compute; discriminate]|reflexivity].
Example C54_case : exists ps ts, reads two_files [bs "/main"] (bs "/main") [] ps ts /\ layout ps = snd (match two_files (bs "main") with Some p => p | None => ([], []) end) ++ [NL] /\ ts = main_tokens.
Proof.
  exists main_pieces, main_tokens. split; [|split; vm_compute; reflexivity]. unfold main_pieces, main_tokens. cbn [app].
  do 3 read_token. apply reads_blank; [left; reflexivity|]. apply reads_comment; [vm_compute; intuition discriminate|].
  change (mkTok TOK_ID (bs "z") 1 15 (bs "/lib") :: mkTok TOK_STATEND [] 1 16 (bs "/lib") :: ?l)
    with ([mkTok TOK_ID (bs "z") 1 15 (bs "/lib"); mkTok TOK_STATEND [] 1 16 (bs "/lib")] ++ l).
  eapply reads_include with (path2 := bs "/lib") (ps2 := lib_pieces).
  - repeat constructor.
  - vm_compute. tauto.
  - repeat constructor; vm_compute; discriminate.
  - reflexivity.
  - vm_compute. intuition discriminate.
  - reflexivity.
  - unfold lib_pieces. eapply reads_included with (path2 := bs "/main").
    + repeat constructor.
    + vm_compute. tauto.
    + repeat constructor; vm_compute; discriminate.
    + reflexivity.
    + right. left. reflexivity.
    + apply reads_blank; [left; reflexivity|]. do 2 read_token. apply reads_end.
  - do 2 read_token. apply reads_blank; [left; reflexivity|]. read_token. apply reads_blank; [left; reflexivity|]. do 2 read_token. apply reads_end.
Qed.

(** Reading any script ends, whatever it includes: [files] are the paths that exist, [L] is the length of
    the longest file.  The only undefined behaviour is that of C84, which needs a backslash. *)
Theorem C54_terminates :
  forall open files L name lx,
    (forall n p t, open n = Some (p, t) -> In p files /\ (length t <= L)%nat) ->
    lex_new open name = Some lx ->
    exists n,
      (exists ts lx2, all_tokens open n lx = Ok (ts, lx2)) \/
      (all_tokens open n lx = UB /\ exists nm p t, open nm = Some (p, t) /\ In BSL t).
Proof.
  intros open files L name lx HF HN. unfold lex_new, file_new in HN. destruct (open name) as [[path text]|] eqn:EO; [|discriminate]. inversion HN; subst lx. clear HN.
  set (lx := [mkLf path 1 0 (text ++ [NL])]).
  assert (HFIT : fit files lx). { split; [constructor; [intros []|constructor]|]. intros x [<-|[]]. apply (HF _ _ _ EO). }
  pose proof (tokens_total open files L HF (S (work files L lx)) lx ltac:(discriminate) HFIT ltac:(lia)) as HT.
  exists (S (work files L lx)). destruct (all_tokens open (S (work files L lx)) lx) as [[ts lx2]| | |]; cbn [no_hang] in HT; try tauto; eauto.
  right. split; auto.
  assert (HB : forall t, In BSL (t ++ [NL]) -> In BSL t). { intros t H. apply in_app_or in H. destruct H as [H|[H|[]]]; auto. discriminate H. }
  destruct HT as [f [[[<-|[]]|[nm [p [t [H1 H2]]]]] H3]].
  - exists name, path, text. auto.
  - rewrite H2 in H3. exists nm, p, t. auto.
Qed.
Print Assumptions C54_terminates.
Example C54_terminates_case : (forall n p t, two_files n = Some (p, t) -> In p [bs "/main"; bs "/lib"] /\ (length t <= 40)%nat) /\
  lex_new two_files (bs "main") <> None.
Proof.
  split; [|vm_compute; discriminate]. unfold two_files. intros n p t H. destruct (list_eq_dec Z.eq_dec n (bs "main")); [inversion H; subst; split; [left; auto|vm_compute; lia]|].
  destruct (list_eq_dec Z.eq_dec n (bs "lib")); [|discriminate]. inversion H; subst; split; [right; left; auto|vm_compute; lia].
Qed.

Definition one_file (text : list Z) (name : list Z) : option (list Z * list Z) := Some (bs "/f", text).
(** The kinds and values of the tokens of a text. *)
Definition tokens_of (text : list Z) : option (list (toktype * list Z * Z)) :=
  match lex_new (one_file text) [] with
  | Some lx => match all_tokens (one_file text) 100 lx with
               | Ok (ts, _) => Some (map (fun t => (t_type t, t_value t, t_line t)) ts)
               | _ => None
               end
  | None => None
  end.
(** An identifier that starts with "include" ends the script: nothing after it is read. *)
Theorem C54_include_prefix_refuted :
  exists text, text = bs "x=included y=1" /\
    tokens_of text = Some [(TOK_ID, bs "x", 1); (TOK_ASSIGN, [], 1)].
Proof. eexists. split; [reflexivity|]. vm_compute. reflexivity. Qed.
Print Assumptions C54_include_prefix_refuted.
(** Lines inside strings are not counted. *)
Theorem C54_multiline_refuted :
  exists text, text = [34; 97; NL; 98; 34; NL; 120] /\    (* "a<newline>b"<newline>x *)
    tokens_of text = Some [(TOK_STRING, [97; NL; 98], 1); (TOK_STATEND, [], 1); (TOK_ID, [120], 2); (TOK_STATEND, [], 2)].
Proof. eexists. split; [reflexivity|]. vm_compute. reflexivity. Qed.
Print Assumptions C54_multiline_refuted.

(** ** C84: string literals *)

(** The characters between the quotes are the string, when there is no backslash among them (newlines
    are allowed here). *)
Theorem C84_plain_string :
  forall open n f fs q v rest,
    In q QUOTES -> lf_rest f = q :: v ++ q :: rest -> Forall (fun c => c <> q /\ c <> BSL /\ c <> 0) v ->
    nexttok open (S n) (f :: fs) =
      Ok (mkTok TOK_STRING v (lf_line f) (lf_col f) (lf_name f), advance f (q :: v ++ [q]) rest :: fs).
Proof.
  intros open n f fs q v rest HQ HR HV.
  assert (HF : forall l1 l2, l1 <> BSL -> find_quote q l1 l2 (v ++ q :: rest) = (v, q :: rest)).
  { clear HR. induction HV as [|c v [HC [HB H0]] HV IH]; intros l1 l2 H1; cbn [app find_quote].
    - replace (q =? q) with true by lia. replace (l1 =? BSL) with false by lia. reflexivity.
    - replace (c =? q) with false by lia. cbn [negb orb]. rewrite IH by auto. reflexivity. }
  eapply nexttok_token; [exact HR| | | |].
  - cbn [QUOTES In] in HQ. destruct HQ as [<-|[<-|[]]]; reflexivity.
  - cbn [QUOTES In] in HQ. destruct HQ as [<-|[<-|[]]]; discriminate.
  - apply other_prefix, letter_no_quote. auto.
  - unfold lex_token.
    assert (Hq : q =? NL = false /\ single q = None /\ isdigit q = false /\ isalpha q = false /\ q =? 61 = false /\ q =? 33 = false /\ (q =? 60) || (q =? 62) = false /\ arith_type q = None /\ isquote q = true).
    { cbn [QUOTES In] in HQ. destruct HQ as [<-|[<-|[]]]; repeat split; reflexivity. }
    destruct Hq as [-> [-> [-> [-> [-> [-> [-> [-> ->]]]]]]]]. rewrite HF by (unfold BSL; lia).
    rewrite <- app_assoc. cbn [app]. rewrite newstring_plain. 2: { eapply Forall_imp; [exact HV|]. cbn. tauto. }
    cbn [bind]. rewrite cstr_id. 2: { eapply Forall_imp; [exact HV|]. cbn. tauto. } reflexivity.
Qed.
Print Assumptions C84_plain_string.
Example C84_plain_string_case :
  nexttok (fun _ => None) 1 [mkLf [] 1 0 (bs "'it is' )")] = Ok (mkTok TOK_STRING (bs "it is") 1 0 [], [mkLf [] 1 7 (bs " )")]).
Proof. apply (C84_plain_string (fun _ => None) 0 (mkLf [] 1 0 (bs "'it is' )")) [] 39 (bs "it is") (bs " )")); [vm_compute; tauto|reflexivity|repeat constructor; vm_compute; discriminate]. Qed.

(** A tab written as an escape sequence: the string gets the tab, but also the closing quote. *)
Theorem C84_escape_refuted :
  exists text, text = [34; 97; BSL; 116; 98; 34; 59] /\      (* "a\tb"; *)
    tokens_of text = Some [(TOK_STRING, [97; TAB; 98; 34], 1); (TOK_STATEND, [], 1); (TOK_STATEND, [], 1)].
Proof. eexists. split; [reflexivity|]. vm_compute. reflexivity. Qed.
Print Assumptions C84_escape_refuted.
(** Enough escape sequences at the end of the file: the buffer is read beyond its end. *)
Theorem C84_overread_refuted :
  exists text lx, text = bs "x='" ++ repeat BSL 8 ++ bs "'" /\ lex_new (one_file text) [] = Some lx /\
    all_tokens (one_file text) 10 lx = UB.
Proof. do 2 eexists. split; [reflexivity|]. split; [reflexivity|]. vm_compute. reflexivity. Qed.
Print Assumptions C84_overread_refuted.
(** An escaped backslash followed by an escaped quote ends the string. *)
Theorem C84_escaped_quote_refuted :
  exists text, text = [34; BSL; BSL; BSL; 34; 97; 34] /\      (* escaped backslash, escaped quote, a *)
    match tokens_of text with Some ((TOK_STRING, _, _) :: (TOK_ID, v, _) :: _) => v = [97] | _ => False end.
Proof. eexists. split; [reflexivity|]. vm_compute. reflexivity. Qed.
Print Assumptions C84_escaped_quote_refuted.

(** ** C85: inclusion *)

(** A file that is not being read is read in place; a file that is being read, directly or through other
    files, is skipped. *)
Theorem C85_inclusion :
  forall open n f fs sp q name r path2 text2,
    Forall blank sp -> In q QUOTES -> Forall (fun c => c <> q /\ c <> NL /\ c <> 0) name ->
    lf_rest f = bs "include" ++ sp ++ q :: name ++ q :: r -> open name = Some (path2, text2) ->
    let f2 := mkLf (lf_name f) (lf_line f) (lf_col f + zlen (bs "include" ++ sp ++ q :: name ++ [q])) r in
    (In path2 (map lf_name (f :: fs)) -> nexttok open (S n) (f :: fs) = nexttok open n (f2 :: fs)) /\
    (~ In path2 (map lf_name (f :: fs)) -> nexttok open (S n) (f :: fs) = nexttok open n (mkLf path2 1 0 (text2 ++ [NL]) :: f2 :: fs)).
Proof.
  intros open n f fs sp q name r path2 text2 HS HQ HN HR HO f2.
  assert (HR2 : lf_rest f = piece_text (Include sp q name) ++ r). { rewrite HR. cbn [piece_text]. rewrite <- !app_assoc. cbn [app]. rewrite <- app_assoc. reflexivity. }
  rewrite (nexttok_include open n f fs sp q name r path2 text2 HS HQ HN HR2 HO). change (advance f (piece_text (Include sp q name)) r) with f2.
  split; intro HI.
  - replace (existsb (fun h => strcmp (lf_name h) path2 =? 0) (f2 :: fs)) with true; auto. symmetry. apply existsb_exists.
    destruct HI as [HI|HI].
    + exists f2. split; [left; auto|]. unfold f2. cbn [lf_name]. rewrite HI, strcmp_refl. reflexivity.
    + apply in_map_iff in HI. destruct HI as [h [H1 H2]]. exists h. split; [right; auto|]. rewrite H1, strcmp_refl. reflexivity.
  - replace (existsb (fun h => strcmp (lf_name h) path2 =? 0) (f2 :: fs)) with false; auto. symmetry. destruct (existsb _ _) eqn:E; auto. exfalso.
    apply existsb_exists in E. destruct E as [h [H1 H2]]. apply HI. apply Z.eqb_eq, strcmp_eq in H2. subst path2. destruct H1 as [<-|H1]; [left; reflexivity|right; apply in_map; auto].
Qed.
Print Assumptions C85_inclusion.
Example C85_inclusion_case : exists text, text = bs "include 'lib' z" /\
  nexttok two_files 2 [mkLf (bs "/other") 1 0 text] = nexttok two_files 1 [mkLf (bs "/lib") 1 0 (bs "include 'main' z" ++ [NL]); mkLf (bs "/other") 1 13 (bs " z")].
Proof.
  eexists. split; [reflexivity|].
  destruct (C85_inclusion two_files 1 (mkLf (bs "/other") 1 0 (bs "include 'lib' z")) [] [32] 39 (bs "lib") (bs " z") (bs "/lib") (bs "include 'main' z")) as [_ H].
  - repeat constructor. - vm_compute. tauto. - repeat constructor; vm_compute; discriminate. - reflexivity. - reflexivity.
  - apply H. vm_compute. intuition discriminate.
Qed.

(** But a file is read again once it has been read to its end. *)
Theorem C85_included_twice_refuted :
  exists open lx ts, open = (fun name => if list_eq_dec Z.eq_dec name (bs "main") then Some (bs "/main", bs "include 'a' include 'a'") else Some (bs "/a", bs "f")) /\
    lex_new open (bs "main") = Some lx /\ all_tokens open 50 lx = Ok (ts, []) /\
    map t_value (filter (fun t => match t_type t with TOK_ID => true | _ => false end) ts) = [bs "f"; bs "f"].
Proof. do 3 eexists. split; [reflexivity|]. split; [vm_compute; reflexivity|]. split; [vm_compute; reflexivity|]. vm_compute. reflexivity. Qed.
Print Assumptions C85_included_twice_refuted.
