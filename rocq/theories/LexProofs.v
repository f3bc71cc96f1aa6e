(** Proofs about the lexer. *)
From Coq Require Import String.
From Verif Require Import Base ListLemmas Dict DictProofs Text TextProofs Lex LexSpec.
Local Open Scope Z_scope. Local Open Scope list_scope.

Ltac Zify.zify_post_hook ::= idtac.

(** ** Positions *)
Lemma line_plain before t : ~ In NL t -> line_of (before ++ t) = line_of before.
Proof.
  intro H. unfold line_of. rewrite filter_app. replace (filter (Z.eqb NL) t) with (@nil Z). { rewrite app_nil_r. reflexivity. }
  symmetry. induction t as [|c t IH]; auto. cbn [filter]. destruct (NL =? c) eqn:E. { exfalso. apply H. left. lia. } apply IH. intro. apply H. right. auto.
Qed.
Lemma take_app_all f (a b : list Z) : Forall (fun c => f c = true) a -> take_while f (a ++ b) = a ++ take_while f b.
Proof. induction 1 as [|c a HC HA IH]; auto. cbn [app take_while]. rewrite HC, IH. reflexivity. Qed.
Lemma drop_app_all f (a b : list Z) : Forall (fun c => f c = true) a -> drop_while f (a ++ b) = drop_while f b.
Proof. induction 1 as [|c a HC HA IH]; auto. cbn [app drop_while]. rewrite HC, IH. reflexivity. Qed.
Lemma not_nl_forall t : ~ In NL t -> Forall (fun c => negb (c =? NL) = true) t.
Proof. intro H. apply Forall_forall. intros c HC. destruct (c =? NL) eqn:E; auto. exfalso. apply H. replace NL with c by lia. auto. Qed.
Lemma column_plain before t : ~ In NL t -> column_of (before ++ t) = column_of before + zlen t.
Proof.
  intro H. unfold column_of. rewrite rev_app_distr. rewrite take_app_all. 2: { apply Forall_rev, not_nl_forall, H. }
  unfold zlen. rewrite app_length, rev_length. lia.
Qed.
Lemma line_nl before t : ~ In NL t -> line_of (before ++ t ++ [NL]) = line_of before + 1.
Proof. intro H. rewrite app_assoc. rewrite <- (line_plain before t H). unfold line_of. rewrite filter_app. cbn [filter]. replace (NL =? NL) with true by reflexivity. unfold zlen. rewrite app_length. cbn [length]. lia. Qed.
Lemma column_nl before t : column_of (before ++ t ++ [NL]) = 0.
Proof. rewrite app_assoc. unfold column_of. rewrite rev_app_distr. reflexivity. Qed.

(** ** Fuel *)
Section Fuel.
Variable open : list Z -> option (list Z * list Z).
Notation nexttok := (nexttok open).
Notation all_tokens := (all_tokens open).

Lemma nexttok_more n : forall lx r, nexttok n lx = Ok r -> nexttok (S n) lx = Ok r.
Proof.
  induction n as [|n IH]; intros lx r H; [discriminate|].
  destruct lx as [|f fs]; [discriminate|]. remember (S n) as m eqn:EM. cbn [Lex.nexttok] in *. rewrite EM in H. cbn [Lex.nexttok] in H.
  repeat match type of H with
  | match ?x with _ => _ end = Ok _ => destruct x eqn:?; auto
  | (if ?x then _ else _) = Ok _ => destruct x eqn:?; auto
  | (let '(_, _) := ?x in _) = Ok _ => destruct x eqn:?; auto
  end; subst m; auto.
Qed.
Lemma nexttok_mono n m lx r : (n <= m)%nat -> nexttok n lx = Ok r -> nexttok m lx = Ok r.
Proof. induction 1; auto. intro. apply nexttok_more. auto. Qed.
Lemma all_more n : forall lx r, all_tokens n lx = Ok r -> all_tokens (S n) lx = Ok r.
Proof.
  induction n as [|n IH]; intros lx r H; [discriminate|]. remember (S n) as m eqn:EM. cbn [Lex.all_tokens]. rewrite EM in H. cbn [Lex.all_tokens] in H.
  rewrite <- EM in H. destruct (nexttok m lx) as [[t lx1]| | |] eqn:E; try discriminate. rewrite (nexttok_more _ _ _ E). cbn [bind] in *.
  destruct (t_type t); auto; destruct (all_tokens n lx1) as [[ts lx2]| | |] eqn:E2; try discriminate; rewrite (IH _ _ E2); auto.
Qed.
Lemma all_mono n m lx r : (n <= m)%nat -> all_tokens n lx = Ok r -> all_tokens m lx = Ok r.
Proof. induction 1; auto. intro. apply all_more. auto. Qed.
End Fuel.

(** ** Steps of the lexer *)
Lemma advance_advance f a b r s : advance (advance f a r) b s = advance f (a ++ b) s.
Proof. unfold advance. cbn [lf_name lf_line lf_col]. f_equal. unfold zlen. rewrite app_length. lia. Qed.
Lemma rest_of f : f = advance f [] (lf_rest f).
Proof. destruct f. unfold advance. cbn. f_equal. lia. Qed.

Section Steps.
Variable open : list Z -> option (list Z * list Z).
Notation nexttok := (nexttok open).
Notation all_tokens := (all_tokens open).

Lemma nexttok_blank n f fs c r : lf_rest f = c :: r -> lex_isspace c = true -> nexttok n (f :: fs) = nexttok n (advance f [c] r :: fs).
Proof.
  intros HR HC. destruct n; auto. cbn [Lex.nexttok]. rewrite HR. cbn [take_while drop_while]. rewrite HC.
  rewrite advance_advance. reflexivity.
Qed.
Lemma nexttok_comment n f fs t r : lf_rest f = 35 :: t ++ NL :: r -> ~ In NL t -> nexttok (S n) (f :: fs) = nexttok n (newline f r :: fs).
Proof.
  intros HR HT. cbn [Lex.nexttok]. rewrite HR. cbn [take_while drop_while]. change (lex_isspace 35) with false. cbn iota. cbn [lf_rest advance].
  change (35 =? 35) with true. cbn iota. rewrite drop_app_all by (apply not_nl_forall; auto). cbn [drop_while]. change (negb (NL =? NL)) with false. cbn iota. unfold newline, advance. cbn [lf_name lf_line]. reflexivity.
Qed.
Lemma nexttok_end n f f2 fs : lf_rest f = [] -> nexttok (S n) (f :: f2 :: fs) = nexttok n (f2 :: fs).
Proof. intros HR. cbn [Lex.nexttok]. rewrite HR. reflexivity. Qed.
Lemma nexttok_eof n f : lf_rest f = [] -> nexttok (S n) [f] = Ok (eoftok, []).
Proof. intros HR. cbn [Lex.nexttok]. rewrite HR. reflexivity. Qed.
Lemma nexttok_token n f fs c r t f2 : lf_rest f = c :: r -> lex_isspace c = false -> c <> 35 -> after_prefix INCLUDE (c :: r) = None ->
  lex_token f c r = Ok (t, f2) -> nexttok (S n) (f :: fs) = Ok (t, f2 :: fs).
Proof.
  intros HR HC H1 HP HT. cbn [Lex.nexttok]. rewrite HR. cbn [take_while drop_while]. rewrite HC. cbn [lf_rest advance].
  replace (c =? 35) with false by lia. rewrite HP.
  replace (advance f [] (c :: r)) with f by (rewrite <- HR; apply rest_of). rewrite HT. reflexivity.
Qed.
End Steps.

(** ** Tokens *)
Lemma strcmp_false a b : a <> b -> (strcmp a b =? 0) = false.
Proof. intro H. destruct (strcmp a b =? 0) eqn:E; auto. exfalso. apply H, strcmp_eq. lia. Qed.
Lemma keyword_none v : ~ In v (map fst reserved) -> keyword v = None.
Proof.
  intro H. unfold keyword, keywords. cbn [find fst].
  rewrite !strcmp_false; auto; intro E; apply H; subst v; unfold reserved; cbn [map fst In]; tauto.
Qed.
Lemma keyword_some w ty : In (w, ty) reserved -> keyword w = Some ty.
Proof. unfold reserved. cbn [In]. intro H. repeat (destruct H as [H|H]; [inversion H; subst; vm_compute; reflexivity|]). destruct H. Qed.

Definition sample : lexfile := mkLf [] 0 0 [].
(** The whole file advances over the text of the token. *)
Definition after_text (f : lexfile) (txt rest : list Z) : lexfile :=
  match txt with
  | [c] => if c =? NL then newline f rest else advance f txt rest
  | _ => advance f txt rest
  end.

Lemma take_stop f (a b : list Z) : Forall (fun c => f c = true) a -> match b with d :: _ => f d = false | [] => True end ->
  take_while f (a ++ b) = a /\ drop_while f (a ++ b) = b.
Proof.
  intros HA HB. rewrite take_app_all, drop_app_all by auto. destruct b as [|d b]; cbn [take_while drop_while]; [rewrite app_nil_r; auto|]. rewrite HB, app_nil_r. auto.
Qed.
Lemma forallb_Forall f (l : list Z) : forallb f l = true -> Forall (fun c => f c = true) l.
Proof. rewrite forallb_forall, Forall_forall. auto. Qed.

Lemma find_quote_plain q v rest : Forall (fun c => c <> q /\ c <> BSL /\ c <> NL /\ c <> 0) v -> forall l1 l2, l1 <> BSL ->
  find_quote q l1 l2 (v ++ q :: rest) = (v, q :: rest).
Proof.
  induction 1 as [|c v [HC [HB [HN H0]]] HV IH]; intros l1 l2 H1; cbn [app find_quote].
  - replace (q =? q) with true by lia. replace (l1 =? BSL) with false by lia. reflexivity.
  - replace (c =? q) with false by lia. cbn [negb orb]. rewrite IH by auto. reflexivity.
Qed.
Lemma newstring_plain v rest : Forall (fun c => c <> BSL) v -> newstring (length v) (v ++ rest) = Ok v.
Proof.
  induction 1 as [|c v HC HV IH]; auto. cbn [length app newstring]. replace (c =? BSL) with false by lia. rewrite IH. reflexivity.
Qed.

Lemma letter_facts c : letter c = true -> c =? NL = false /\ single c = None /\ isdigit c = false /\ isalpha c = true /\ lex_isspace c = false /\ c <> 35.
Proof.
  unfold letter. intro H. assert (HR : 65 <= c <= 90 \/ 97 <= c <= 122) by lia.
  assert (NL = 10) by reflexivity.
  repeat split; try (unfold isdigit, isalpha, lex_isspace; lia). unfold single.
  repeat match goal with |- context [c =? ?k] => replace (c =? k) with false by lia end. reflexivity.
Qed.
Lemma digit_facts c : digit c = true -> c =? NL = false /\ single c = None /\ isdigit c = true /\ isalpha c = false /\ lex_isspace c = false /\ c <> 35.
Proof.
  unfold digit. intro H. assert (HR : 48 <= c <= 57) by lia.
  assert (NL = 10) by reflexivity.
  repeat split; try (unfold isdigit, isalpha, lex_isspace; lia). unfold single.
  repeat match goal with |- context [c =? ?k] => replace (c =? k) with false by lia end. reflexivity.
Qed.

Lemma word_token f c r rest ty : letter c = true -> forallb word_char r = true ->
  match rest with d :: _ => word_char d = false | [] => True end ->
  (match keyword (c :: r) with Some ty => ty | None => TOK_ID end) = ty ->
  lex_token f c (r ++ rest) = Ok (mkTok ty (c :: r) (lf_line f) (lf_col f) (lf_name f), advance f (c :: r) rest).
Proof.
  intros HC HR HN HK. destruct (letter_facts c HC) as [E1 [E2 [E3 [E4 [E5 E6]]]]]. unfold lex_token. rewrite E1, E2, E3, E4.
  assert (HX : forall d, isid d = word_char d) by reflexivity.
  destruct (take_stop isid r rest) as [-> ->]. { apply forallb_Forall. exact HR. } { exact HN. }
  rewrite HK. reflexivity.
Qed.

Lemma reserved_letters w ty : In (w, ty) reserved -> exists c r, w = c :: r /\ letter c = true /\ forallb word_char r = true.
Proof. unfold reserved. cbn [In]. intro H. repeat (destruct H as [H|H]; [inversion H; subst; vm_compute; eauto|]). destruct H. Qed.

Lemma spells_starts ty v txt : spells ty v txt -> exists c r, txt = c :: r /\ lex_isspace c = false /\ c <> 35.
Proof.
  destruct 1 as [c r H1 H2 H3 H4|w ty H1|c r H1 H2|q v H1 H2|txt ty v H1].
  - destruct (letter_facts c H1) as [E1 [E2 [E3 [E4 [E5 E6]]]]]. eauto.
  - destruct (reserved_letters _ _ H1) as [c [r [-> [HC HR]]]]. destruct (letter_facts c HC) as [E1 [E2 [E3 [E4 [E5 E6]]]]]. eauto.
  - destruct (digit_facts c H1) as [E1 [E2 [E3 [E4 [E5 E6]]]]]. eauto.
  - exists q, (v ++ [q]). split; auto. cbn [QUOTES In] in H1. destruct H1 as [<-|[<-|[]]]; split; (reflexivity || lia).
  - cbn [symbols In] in H1. repeat (destruct H1 as [H1|H1]; [inversion H1; subst; vm_compute; repeat eexists; discriminate|]). destruct H1.
Qed.

Lemma after_prefix_app p s r : after_prefix p s = Some r -> s = p ++ r.
Proof.
  revert s. induction p as [|a p IH]; intros s H; cbn [after_prefix] in H; [inversion H; auto|].
  destruct s as [|b s]; [discriminate|]. destruct (a =? b) eqn:E; [|discriminate]. rewrite (IH _ H). cbn. f_equal. lia.
Qed.
Lemma prefix_of_app {A} (p a b r : list A) : a ++ b = p ++ r -> (length p <= length a)%nat -> exists s, a = p ++ s.
Proof.
  revert a. induction p as [|x p IH]; intros a H HL; [exists a; auto|]. destruct a as [|y a]; [cbn in HL; lia|]. cbn in H. inversion H; subst.
  destruct (IH a H2) as [s ->]; [cbn in HL; lia|]. exists s. auto.
Qed.

(** A word does not start with "include" when the whole text does not. *)
Lemma word_prefix w rest : (forall s, w <> INCLUDE ++ s) -> match rest with d :: _ => word_char d = false | [] => True end ->
  after_prefix INCLUDE (w ++ rest) = None.
Proof.
  intros HW HR. destruct (after_prefix INCLUDE (w ++ rest)) as [r|] eqn:E; auto. exfalso. apply after_prefix_app in E.
  destruct (le_lt_dec (length INCLUDE) (length w)) as [HL|HL].
  - destruct (prefix_of_app _ _ _ _ E HL) as [s HS]. exact (HW s HS).
  - destruct rest as [|d rest].
    + rewrite app_nil_r in E. apply (f_equal (@length Z)) in E. rewrite app_length in E. lia.
    + assert (HD : nth_error (w ++ d :: rest) (length w) = Some d) by (rewrite nth_error_app2, Nat.sub_diag by lia; reflexivity).
      rewrite E, nth_error_app1 in HD by lia. apply nth_error_In in HD.
      assert (HA : forallb word_char INCLUDE = true) by reflexivity. rewrite forallb_forall in HA. rewrite (HA d HD) in HR. discriminate.
Qed.
Lemma other_prefix c r : letter c = false -> after_prefix INCLUDE (c :: r) = None.
Proof.
  intro H. change INCLUDE with (105 :: tl INCLUDE). cbn [after_prefix]. destruct (105 =? c) eqn:E; auto. exfalso. replace c with 105 in H by lia. discriminate H.
Qed.

Lemma reserved_include w ty s : In (w, ty) reserved -> w <> INCLUDE ++ s.
Proof. unfold reserved. cbn [In]. intro H. repeat (destruct H as [H|H]; [inversion H; subst; intro E; discriminate E|]). destruct H. Qed.

(** The other symbols, by cases. *)
Lemma symbol_token txt ty v rest f : In (txt, ty, v) symbols -> match rest with d :: _ => goes_on txt d = false | [] => True end ->
  exists c r, txt = c :: r /\ letter c = false /\
    lex_token f c (r ++ rest) = Ok (mkTok ty v (lf_line f) (lf_col f) (lf_name f), after_text f txt rest).
Proof.
  intros H HN. cbn [symbols In] in H.
  repeat (destruct H as [H|H]; [inversion H; subst txt ty v; clear H|]); [..|destruct H];
    match goal with |- exists c r, ?t = _ /\ _ => let t1 := eval vm_compute in t in change t with t1; lazymatch t1 with ?c0 :: ?r0 => exists c0, r0 end end;
    (split; [reflexivity|]); (split; [reflexivity|]); cbn [app]; try reflexivity;
    destruct rest as [|d rest]; try reflexivity;
    unfold goes_on in HN; cbn [letter digit] in HN;
    match type of HN with (if ?b then _ else _) = _ => change b with false in HN end; cbn iota in HN;
    match type of HN with (if ?b then _ else _) = _ => change b with false in HN end; cbn iota in HN;
    unfold lex_token; change (isalpha _) with false; change (isdigit _) with false; cbn iota;
    match goal with |- context [d =? ?k] => idtac end;
    destruct (Z.eq_dec d 61) as [->|HD]; try (vm_compute in HN; discriminate HN);
    try (destruct (Z.eq_dec d 60) as [->|HD2]; try (vm_compute in HN; discriminate HN));
    try (destruct (Z.eq_dec d 62) as [->|HD3]; try (vm_compute in HN; discriminate HN));
    try reflexivity;
    repeat match goal with |- context [d =? ?k] => replace (d =? k) with false by lia end; reflexivity.
Qed.
Lemma letter_no_quote q : In q QUOTES -> letter q = false.
Proof. cbn [QUOTES In]. intros [<-|[<-|[]]]; reflexivity. Qed.

Lemma spells_token ty v txt rest f : spells ty v txt ->
  match rest with d :: _ => goes_on txt d = false | [] => True end ->
  exists c r, txt ++ rest = c :: r /\ lex_isspace c = false /\ c <> 35 /\ after_prefix INCLUDE (c :: r) = None /\
    lex_token f c r = Ok (mkTok ty v (lf_line f) (lf_col f) (lf_name f), after_text f txt rest).
Proof.
  intros HS HN. destruct (spells_starts _ _ _ HS) as [c [r [ET [HC H35]]]]. exists c, (r ++ rest). rewrite ET. split; auto. split; auto. split; auto. rewrite ET in HN.
  destruct HS as [c' r' H1 H2 H3 H4|w ty H1|c' r' H1 H2|q v H1 H2|txt ty v H1].
  - inversion ET; subst c' r'. assert (HX : match rest with d :: _ => word_char d = false | [] => True end). { destruct rest; auto. unfold goes_on in HN. rewrite H1 in HN. auto. }
    split. { apply (word_prefix (c :: r) rest); auto. }
    rewrite (word_token f c r rest TOK_ID); auto. 2: { rewrite keyword_none; auto. }
    unfold after_text. destruct r; auto. destruct (letter_facts c H1) as [-> _]. reflexivity.
  - destruct (reserved_letters _ _ H1) as [c' [r' [E [HL HR]]]]. rewrite ET in E. inversion E; subst c' r'. clear E. subst w.
    assert (HX : match rest with d :: _ => word_char d = false | [] => True end). { destruct rest; auto. unfold goes_on in HN. rewrite HL in HN. auto. }
    split. { apply (word_prefix (c :: r) rest); auto. intros s. apply (reserved_include _ _ _ H1). }
    rewrite (word_token f c r rest ty); auto. 2: { rewrite (keyword_some _ _ H1). auto. }
    unfold after_text. destruct r; auto. destruct (letter_facts c HL) as [-> _]. reflexivity.
  - inversion ET; subst c' r'. destruct (digit_facts c H1) as [E1 [E2 [E3 [E4 [E5 E6]]]]].
    assert (HL : letter c = false) by exact E4.
    split. { apply other_prefix. auto. }
    assert (HX : match rest with d :: _ => isnumber d = false | [] => True end). { destruct rest; auto. unfold goes_on in HN. rewrite HL, H1 in HN. auto. }
    unfold lex_token. rewrite E1, E2, E3. destruct (take_stop isnumber r rest) as [-> ->]; auto. { apply forallb_Forall. exact H2. }
    unfold after_text. destruct r; auto. rewrite E1. reflexivity.
  - inversion ET; subst c r. split. { apply other_prefix, letter_no_quote. auto. }
    rewrite <- app_assoc. cbn [app]. unfold lex_token.
    assert (HQ : q =? NL = false /\ single q = None /\ isdigit q = false /\ isalpha q = false /\ q =? 61 = false /\ q =? 33 = false /\ (q =? 60) || (q =? 62) = false /\ arith_type q = None /\ isquote q = true).
    { cbn [QUOTES In] in H1. destruct H1 as [<-|[<-|[]]]; repeat split; reflexivity. }
    destruct HQ as [-> [-> [-> [-> [-> [-> [-> [-> ->]]]]]]]].
    rewrite find_quote_plain; auto. 2: { unfold BSL. lia. }
    rewrite <- app_assoc. cbn [app]. rewrite newstring_plain. 2: { eapply Forall_imp; [exact H2|]. cbn. tauto. }
    cbn [bind]. rewrite cstr_id. 2: { eapply Forall_imp; [exact H2|]. cbn. tauto. }
    unfold after_text. destruct (v ++ [q]) eqn:E; auto. destruct v; discriminate E.
  - rewrite ET in *. destruct (symbol_token _ _ _ rest f H1 HN) as [c' [r' [E [HL HT]]]]. inversion E; subst c' r'. split; auto. apply other_prefix. auto.
Qed.

Lemma include_ok f sp q name r : Forall blank sp -> In q QUOTES -> Forall (fun c => c <> q /\ c <> NL /\ c <> 0) name ->
  lf_rest f = sp ++ q :: name ++ q :: r -> include_name f = (advance f (sp ++ q :: name ++ [q]) r, Some name).
Proof.
  intros HS HQ HN HR. unfold include_name. rewrite HR.
  assert (HS2 : Forall (fun c => lex_isspace c = true) sp). { eapply Forall_imp; [exact HS|]. intros c [-> | [-> | ->]]; reflexivity. }
  assert (Hq : lex_isspace q = false /\ isquote q = true /\ q =? NL = false). { cbn [QUOTES In] in HQ. destruct HQ as [<-|[<-|[]]]; repeat split; reflexivity. }
  destruct (take_stop lex_isspace sp (q :: name ++ q :: r) HS2 (proj1 Hq)) as [-> ->]. change (lf_rest (advance f sp (q :: name ++ q :: r))) with (q :: name ++ q :: r). cbn iota.
  destruct Hq as [_ [-> HqN]]. cbv zeta.
  destruct (take_stop (fun c => negb ((c =? q) || (c =? NL))) name (q :: r)) as [E1 E2].
  { eapply Forall_imp; [exact HN|]. cbn. intros c [A [B C]]. replace (c =? q) with false by lia. replace (c =? NL) with false by lia. reflexivity. }
  { rewrite Z.eqb_refl. reflexivity. }
  rewrite E1, E2. cbn [lf_rest advance]. rewrite HqN. rewrite cstr_id. 2: { eapply Forall_imp; [exact HN|]. cbn. tauto. }
  change (mkLf (lf_name f) (lf_line f) (lf_col f + zlen sp + zlen (q :: name)) (q :: r)) with (advance (advance f sp (q :: name ++ q :: r)) (q :: name) (q :: r)).
  rewrite !advance_advance. reflexivity.
Qed.

Section Reads.
Variable open : list Z -> option (list Z * list Z).
Notation nexttok := (nexttok open).
Notation all_tokens := (all_tokens open).

Lemma nexttok_include n f fs sp q name r path2 text2 : Forall blank sp -> In q QUOTES -> Forall (fun c => c <> q /\ c <> NL /\ c <> 0) name ->
  lf_rest f = piece_text (Include sp q name) ++ r -> open name = Some (path2, text2) ->
  let f2 := advance f (piece_text (Include sp q name)) r in
  nexttok (S n) (f :: fs) =
    if existsb (fun h => strcmp (lf_name h) path2 =? 0) (f2 :: fs) then nexttok n (f2 :: fs)
    else nexttok n (mkLf path2 1 0 (text2 ++ [NL]) :: f2 :: fs).
Proof.
  intros HS HQ HN HR HO f2. cbn [Lex.nexttok]. rewrite HR.
  assert (E : piece_text (Include sp q name) ++ r = INCLUDE ++ (sp ++ q :: name ++ q :: r)).
  { cbn [piece_text]. change (bs "include") with INCLUDE. rewrite <- !app_assoc. cbn [app]. rewrite <- app_assoc. reflexivity. }
  rewrite E. change (INCLUDE ++ sp ++ q :: name ++ q :: r) with (105 :: bs "nclude" ++ sp ++ q :: name ++ q :: r).
  cbn [take_while drop_while]. change (lex_isspace 105) with false. cbn iota.
  change (lf_rest (advance f [] (105 :: bs "nclude" ++ sp ++ q :: name ++ q :: r))) with (105 :: bs "nclude" ++ sp ++ q :: name ++ q :: r). cbn iota. change (105 =? 35) with false. cbn iota.
  change (after_prefix INCLUDE (105 :: bs "nclude" ++ sp ++ q :: name ++ q :: r)) with (Some (sp ++ q :: name ++ q :: r)). cbn iota.
  erewrite include_ok; [|exact HS|exact HQ|exact HN|reflexivity]. cbn iota. unfold file_new. rewrite HO. cbn [lf_name].
  rewrite !advance_advance. cbn [app]. change (INCLUDE ++ sp ++ q :: name ++ [q]) with (piece_text (Include sp q name)). fold f2. reflexivity.
Qed.

(** What the rest of the stack gives. *)
Definition outcome (lx : lexer) (ts : list token) (e : lexer) : Prop :=
  match lx with
  | [] => ts = [] /\ e = []
  | _ => exists n, all_tokens n lx = Ok (ts, e)
  end.
Lemma outcome_eq f fs lx2 ts e : (forall n, nexttok (S n) (f :: fs) = nexttok n lx2 \/ nexttok (S n) (f :: fs) = nexttok (S n) lx2) -> lx2 <> [] -> outcome lx2 ts e -> outcome (f :: fs) ts e.
Proof.
  intros HN HE. destruct lx2 as [|g gs]; [congruence|]. intros [n H]. exists (S n).
  destruct n as [|n]; [discriminate|]. cbn [Lex.all_tokens] in H. remember (S n) as m.
  destruct (nexttok m (g :: gs)) as [[t lx1]| | |] eqn:E; try discriminate.
  cbn [Lex.all_tokens]. assert (HT : nexttok (S m) (f :: fs) = Ok (t, lx1)). { destruct (HN m) as [-> | ->]; auto. apply nexttok_more. auto. }
  rewrite HT. cbn [bind] in *. destruct (t_type t); auto; destruct (all_tokens n lx1) as [[ts2 lx2]| | |] eqn:E2; try discriminate; rewrite Heqm, (all_more _ _ _ _ E2); auto.
Qed.
Lemma outcome_token f fs t lx2 ts e : (forall n, nexttok (S n) (f :: fs) = Ok (t, lx2)) -> t_type t <> TOK_EOF -> lx2 <> [] -> outcome lx2 ts e -> outcome (f :: fs) (t :: ts) e.
Proof.
  intros HN HT HE. destruct lx2 as [|g gs]; [congruence|]. intros [n H]. exists (S n). cbn [Lex.all_tokens]. rewrite HN. cbn [bind].
  rewrite H. cbn [bind]. destruct (t_type t); try congruence; auto.
Qed.
Lemma after_text_pos f before txt rest ty v : spells ty v txt -> lf_line f = line_of before -> lf_col f = column_of before ->
  after_text f txt rest = mkLf (lf_name f) (line_of (before ++ txt)) (column_of (before ++ txt)) rest.
Proof.
  intros HS HL HC. assert (HT : txt = [NL] \/ (~ In NL txt /\ after_text f txt rest = advance f txt rest)).
  { assert (HD : forall c r, txt = c :: r -> c <> NL -> after_text f txt rest = advance f txt rest).
    { intros c r -> Hc. unfold after_text. destruct r; auto. replace (c =? NL) with false by lia. auto. }
    assert (HF : forall p r, (forall c, p c = true -> c <> NL) -> forallb p r = true -> ~ In NL r).
    { intros p r H1 H2 H3. rewrite forallb_forall in H2. apply (H1 NL); auto. }
    assert (HW : forall c, word_char c = true -> c <> NL) by (intros c Hc ->; discriminate Hc).
    assert (HL2 : forall c, letter c = true -> c <> NL) by (intros c Hc ->; discriminate Hc).
    assert (HD2 : forall c, digit c = true -> c <> NL) by (intros c Hc ->; discriminate Hc).
    assert (HNu : forall c, number_char c = true -> c <> NL) by (intros c Hc ->; discriminate Hc).
    destruct HS as [c r H1 H2 H3 H4|w ty H1|c r H1 H2|q v H1 H2|txt ty v H1].
    - right. split; [|eauto]. intros [H|H]; [apply (HL2 c); auto|]. exact (HF _ _ HW H2 H).
    - destruct (reserved_letters _ _ H1) as [c [r [-> [H2 H3]]]]. right. split; [|eauto]. intros [H|H]; [apply (HL2 c); auto|]. exact (HF _ _ HW H3 H).
    - right. split; [|eauto]. intros [H|H]; [apply (HD2 c); auto|]. exact (HF _ _ HNu H2 H).
    - assert (Hq : q <> NL). { cbn [QUOTES In] in H1. destruct H1 as [<-|[<-|[]]]; discriminate. }
      right. split; [|eauto]. intros [H|H]; [auto|]. apply in_app_or in H. destruct H as [H|[H|[]]]; auto. rewrite Forall_forall in H2. apply H2 in H. tauto.
    - cbn [symbols In] in H1. repeat (destruct H1 as [H1|H1]; [inversion H1; subst txt ty v;
        first [left; reflexivity|right; split; [vm_compute; intros; intuition discriminate|reflexivity]]|]). destruct H1. }
  destruct HT as [-> | [HT ->]].
  - change (after_text f [NL] rest) with (newline f rest). unfold newline. change [NL] with ([] ++ [NL]). rewrite line_nl, column_nl by auto. rewrite HL. reflexivity.
  - unfold advance. rewrite line_plain, column_plain by auto. rewrite HL, HC. reflexivity.
Qed.
Lemma spells_not_eof ty v txt : spells ty v txt -> ty <> TOK_EOF.
Proof.
  destruct 1 as [c r H1 H2 H3 H4|w ty H1|c r H1 H2|q v H1 H2|txt ty v H1]; try discriminate.
  - cbn [reserved In] in H1. repeat (destruct H1 as [H1|H1]; [inversion H1; discriminate|]). destruct H1.
  - cbn [symbols In] in H1. repeat (destruct H1 as [H1|H1]; [inversion H1; discriminate|]). destruct H1.
Qed.
Lemma include_no_nl sp q name : Forall blank sp -> In q QUOTES -> Forall (fun c => c <> q /\ c <> NL /\ c <> 0) name -> ~ In NL (piece_text (Include sp q name)).
Proof.
  intros HS HQ HN H. cbn [piece_text] in H. apply in_app_or in H. destruct H as [H|H]; [vm_compute in H; intuition discriminate|].
  apply in_app_or in H. assert (Hq : q <> NL). { cbn [QUOTES In] in HQ. destruct HQ as [<-|[<-|[]]]; discriminate. }
  destruct H as [H|[H|H]]; auto.
  - rewrite Forall_forall in HS. destruct (HS NL H) as [E|[E|E]]; discriminate E.
  - apply in_app_or in H. destruct H as [H|[H|[]]]; auto. rewrite Forall_forall in HN. apply HN in H. tauto.
Qed.

Theorem reads_outcome files path before ps ts : reads open files path before ps ts -> forall fs ts2 e,
  files = path :: map lf_name fs -> outcome fs ts2 e ->
  outcome (mkLf path (line_of before) (column_of before) (layout ps) :: fs) (ts ++ ts2) e.
Proof.
  induction 1 as [files path before|files path before c ps ts HC HR IH|files path before t ps ts HT HR IH|files path before ty v txt ps ts HS HN HR IH
    |files path before sp q name path2 text2 ps2 ts2 ps ts HS HQ HN HO HI HL HR2 IH2 HR IH|files path before sp q name path2 text2 ps ts HS HQ HN HO HI HR IH]; intros fs tsx e HF HOut.
  - destruct fs as [|f2 fs].
    + destruct HOut as [-> ->]. exists 1%nat. reflexivity.
    + eapply outcome_eq; [intro n; left; apply nexttok_end; reflexivity|discriminate|exact HOut].
  - assert (Hc : lex_isspace c = true /\ ~ In NL [c]). { destruct HC as [-> | [-> | ->]]; split; try reflexivity; intros [H|[]]; discriminate H. }
    eapply outcome_eq with (lx2 := mkLf path (line_of (before ++ [c])) (column_of (before ++ [c])) (layout ps) :: fs).
    + intro n. right. rewrite (nexttok_blank open (S n) _ fs c (layout ps)); [|reflexivity|apply Hc]. unfold advance. cbn [lf_name lf_line lf_col]. rewrite line_plain, column_plain by apply Hc. reflexivity.
    + discriminate.
    + apply IH; auto.
  - eapply outcome_eq with (lx2 := mkLf path (line_of (before ++ piece_text (Comment t))) (column_of (before ++ piece_text (Comment t))) (layout ps) :: fs).
    + intro n. left. rewrite (nexttok_comment open n _ fs t (layout ps)); auto.
      * unfold newline. cbn [lf_name lf_line piece_text]. change (35 :: t ++ [NL]) with ((35 :: t) ++ [NL]). rewrite line_nl, column_nl; auto. intros [H|H]; [discriminate H|auto].
      * cbn [lf_rest layout map concat piece_text app]. rewrite <- app_assoc. reflexivity.
    + discriminate.
    + apply IH; auto.
  - set (f := mkLf path (line_of before) (column_of before) (layout (Token ty v txt :: ps))).
    destruct (spells_token ty v txt (layout ps) f HS HN) as [c [r [E [H1 [H2 [H3 H4]]]]]].
    cbn [app]. eapply outcome_token with (lx2 := mkLf path (line_of (before ++ txt)) (column_of (before ++ txt)) (layout ps) :: fs).
    + intro n. rewrite (nexttok_token open n f fs c r _ _ E H1 H2 H3 H4).
      rewrite (after_text_pos f before txt (layout ps) ty v HS); reflexivity.
    + apply (spells_not_eof _ _ _ HS).
    + discriminate.
    + apply IH; auto.
  - set (inc := piece_text (Include sp q name)) in *. set (f2 := mkLf path (line_of (before ++ inc)) (column_of (before ++ inc)) (layout ps)).
    assert (HNL : ~ In NL inc) by (apply include_no_nl; auto).
    eapply outcome_eq with (lx2 := mkLf path2 1 0 (text2 ++ [NL]) :: f2 :: fs).
    + intro n. left. rewrite (nexttok_include n _ fs sp q name (layout ps) path2 text2); auto.
      replace (advance (mkLf path (line_of before) (column_of before) (layout (Include sp q name :: ps))) (piece_text (Include sp q name)) (layout ps)) with f2.
      2: { unfold f2, advance. cbn [lf_name lf_line lf_col]. rewrite line_plain, column_plain by auto. reflexivity. }
      replace (existsb (fun h => strcmp (lf_name h) path2 =? 0) (f2 :: fs)) with false; auto. symmetry. destruct (existsb _ _) eqn:E; auto. exfalso.
      apply existsb_exists in E. destruct E as [h [H1 H2]]. apply HI. rewrite HF. apply Z.eqb_eq, strcmp_eq in H2. subst path2. destruct H1 as [<-|H1]; [left; reflexivity|right; apply in_map; auto].
    + discriminate.
    + rewrite HL, <- app_assoc. apply (IH2 (f2 :: fs) (ts ++ tsx) e). { rewrite HF. reflexivity. } apply IH; auto.
  - set (inc := piece_text (Include sp q name)) in *. set (f2 := mkLf path (line_of (before ++ inc)) (column_of (before ++ inc)) (layout ps)).
    assert (HNL : ~ In NL inc) by (apply include_no_nl; auto).
    eapply outcome_eq with (lx2 := f2 :: fs).
    + intro n. left. rewrite (nexttok_include n _ fs sp q name (layout ps) path2 text2); auto.
      replace (advance (mkLf path (line_of before) (column_of before) (layout (Include sp q name :: ps))) (piece_text (Include sp q name)) (layout ps)) with f2.
      2: { unfold f2, advance. cbn [lf_name lf_line lf_col]. rewrite line_plain, column_plain by auto. reflexivity. }
      replace (existsb (fun h => strcmp (lf_name h) path2 =? 0) (f2 :: fs)) with true; auto. symmetry. apply existsb_exists.
      rewrite HF in HI. destruct HI as [<-|HI].
      * exists f2. split; [left; auto|]. unfold f2. cbn [lf_name]. rewrite strcmp_refl. reflexivity.
      * apply in_map_iff in HI. destruct HI as [h [H1 H2]]. exists h. split; [right; auto|]. rewrite H1, strcmp_refl. reflexivity.
    + discriminate.
    + apply IH; auto.
Qed.
End Reads.
