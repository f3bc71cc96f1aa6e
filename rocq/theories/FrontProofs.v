(** The reader of scripts (Front.v) is sound. *)
From Coq Require Import String.
From Verif Require Import Base Strman Obj Text Lex LexSpec Asm AsmSpec Source CompileSpec Front PropsScript.
Local Open Scope Z_scope. Local Open Scope list_scope.

Lemma tt_eqb_ok a b : tt_eqb a b = true -> a = b. Proof. unfold tt_eqb. destruct (toktype_eq a b); auto; discriminate. Qed.
Lemma is_ok ty t : is ty t = true -> t_type t = ty. Proof. apply tt_eqb_ok. Qed.
Lemma is_not ty t : is ty t = false -> t_type t <> ty. Proof. unfold is, tt_eqb. destruct (toktype_eq _ _); auto; discriminate. Qed.
Lemma expect_ok ty ts t r : expect ty ts = Some (t, r) -> ts = t :: r /\ t_type t = ty.
Proof. destruct ts as [|u us]; [discriminate|]. cbn [expect]. destruct (is ty u) eqn:E; [|discriminate]. intro H. injection H as <- <-. split; auto. apply is_ok; auto. Qed.
Lemma leq_ok (a b : list Z) : (if list_eq_dec Z.eq_dec a b then true else false) = true -> a = b.
Proof. destruct (list_eq_dec Z.eq_dec a b); auto; discriminate. Qed.
Lemma mem_ok x l : mem x l = true -> In x l.
Proof. unfold mem. intro H. apply existsb_exists in H. destruct H as (y & H & E). apply leq_ok in E. subst. auto. Qed.
Lemma mem_not x l : mem x l = false -> ~ In x l.
Proof. intros H HI. assert (mem x l = true); [|congruence]. apply existsb_exists. exists x. split; auto. destruct (list_eq_dec Z.eq_dec x x); auto. Qed.
Lemma blank_ok c : blankb c = true -> blank c.
Proof. unfold blankb, blank. intro H. apply Bool.orb_true_iff in H. destruct H as [H|H]; [apply Bool.orb_true_iff in H; destruct H as [H|H]|]; apply Z.eqb_eq in H; auto. Qed.
Lemma quote_ok q : (q =? 39) || (q =? 34) = true -> In q QUOTES.
Proof. intro H. apply Bool.orb_true_iff in H. unfold QUOTES. destruct H as [H|H]; apply Z.eqb_eq in H; subst; cbn; auto. Qed.
Ltac bsplit := repeat match goal with
  | H : _ && _ = true |- _ => apply Bool.andb_true_iff in H; destruct H
  | H : negb _ = true |- _ => apply Bool.negb_true_iff in H
  | H : (_ =? _) = false |- _ => apply Z.eqb_neq in H
  end.

Lemma spellsb_ok ty v txt : spellsb ty v txt = true -> LexSpec.spells ty v txt.
Proof.
  unfold spellsb. intro H. apply Bool.orb_true_iff in H. destruct H as [H|H]; [apply Bool.orb_true_iff in H; destruct H as [H|H]|].
  - apply existsb_exists in H. destruct H as (((s & y) & w) & HI & H). bsplit. apply leq_ok in H, H0. apply tt_eqb_ok in H1. subst. apply spells_symbol; auto.
  - bsplit. apply leq_ok in H. subst v. apply Bool.orb_true_iff in H0. destruct H0 as [H|H].
    + apply existsb_exists in H. destruct H as ((w & y) & HI & H). cbn [fst snd] in H. bsplit. apply leq_ok in H. apply tt_eqb_ok in H0. subst. apply spells_word; auto.
    + destruct txt as [|c r]; [discriminate|]. apply Bool.orb_true_iff in H. destruct H as [H|H]; bsplit.
      * apply tt_eqb_ok in H. subst ty. apply spells_id; auto; [apply mem_not; auto|]. intros s E. unfold includes in H0. rewrite E in H0.
        change (firstn 7 (bs "include" ++ s)) with (bs "include") in H0. destruct (list_eq_dec Z.eq_dec (bs "include") (bs "include")); [discriminate|congruence].
      * apply tt_eqb_ok in H. subst ty. apply spells_const; auto.
  - destruct txt as [|q r]; [discriminate|]. bsplit. apply tt_eqb_ok in H. apply quote_ok in H2. apply leq_ok in H1. subst. apply spells_string; auto.
    apply Forall_forall. intros c Hc. rewrite forallb_forall in H0. specialize (H0 c Hc). cbn beta in H0. bsplit. auto.
Qed.

Lemma advance_ok txt : forall bf, advance (line_of bf, column_of bf) txt = (line_of (bf ++ txt), column_of (bf ++ txt)).
Proof.
  induction txt as [|x r IH]; intro bf; [rewrite app_nil_r; reflexivity|]. cbn [advance fold_left]. fold (advance (if x =? NL then (line_of bf + 1, 0) else (line_of bf, column_of bf + 1)) r).
  change (x :: r) with ([x] ++ r). rewrite app_assoc, <- IH. f_equal. unfold line_of, column_of. rewrite filter_app, rev_app_distr. cbn [filter rev app take_while]. rewrite Z.eqb_sym. destruct (NL =? x).
  - cbn [negb]. unfold zlen. rewrite app_length. cbn [length]. f_equal; lia.
  - rewrite app_nil_r. cbn [negb]. unfold zlen. cbn [length]. f_equal; lia.
Qed.
Lemma check_ok open n : forall files path bf ps ts, check open n files path (line_of bf, column_of bf) ps = Some ts -> reads open files path bf ps ts.
Proof.
  induction n as [|n IH]; intros files path bf ps ts H; [discriminate|]. cbn [check] in H. rewrite ?advance_ok in H. cbn [fst snd] in H. destruct ps as [|[c|t|ty v txt|sp q name] ps].
  - injection H as <-. constructor.
  - destruct (blankb c) eqn:E; [|discriminate]. rewrite advance_ok in H. constructor; auto. apply blank_ok; auto.
  - destruct (existsb (Z.eqb NL) t) eqn:E; [discriminate|]. rewrite advance_ok in H. constructor; auto. intro HI. assert (existsb (Z.eqb NL) t = true); [|congruence]. apply existsb_exists. exists NL. split; auto.
  - destruct (spellsb ty v txt && match layout ps with [] => true | d :: _ => negb (goes_on txt d) end) eqn:E; [|discriminate]. bsplit. rewrite advance_ok in H. destruct (check open n files path (line_of (bf ++ txt), column_of (bf ++ txt)) ps) as [us|] eqn:EC; [|discriminate]. injection H as <-.
    constructor; auto. { apply spellsb_ok; auto. } destruct (layout ps); auto. bsplit. auto.
  - match type of H with (if ?b then _ else _) = _ => destruct b eqn:E; [|discriminate] end. bsplit.
    assert (HB : Forall blank sp) by (apply Forall_forall; intros c Hc; rewrite forallb_forall in H0; apply blank_ok; auto).
    assert (HN : Forall (fun c => c <> q /\ c <> NL /\ c <> 0) name). { apply Forall_forall. intros c Hc. rewrite forallb_forall in H1. specialize (H1 c Hc). cbn beta in H1. bsplit. auto. }
    rewrite advance_ok in H. apply quote_ok in H2. destruct (open name) as [[path2 text2]|] eqn:EO; [|discriminate]. destruct (mem path2 files) eqn:EM.
    + eapply reads_included; eauto. apply mem_ok; auto.
    + cbn zeta in H. destruct (list_eq_dec Z.eq_dec (text2 ++ [NL]) (layout (pieces_of text2))) as [EL|]; [|discriminate].
      destruct (check open n (path2 :: files) path2 (1, 0) (pieces_of text2)) as [us|] eqn:E1; [|discriminate].
      destruct (check open n files path (line_of (bf ++ piece_text (Include sp q name)), column_of (bf ++ piece_text (Include sp q name))) ps) as [vs|] eqn:E2; [|discriminate]. injection H as <-.
      eapply reads_include; eauto. apply mem_not; auto.
Qed.
(** The tokens of a file. *)
Lemma tokens_of_ok open n path text ts : tokens_of open n path text = Some ts ->
  exists ps, text ++ [NL] = layout ps /\ reads open [path] path [] ps ts.
Proof.
  unfold tokens_of. destruct (list_eq_dec Z.eq_dec _ _) as [E|]; [|discriminate]. intro H. exists (pieces_of text). split; auto. apply (check_ok open n [path] path [] _ _ H).
Qed.

(** ** Programs *)
Import Source.
Lemma params_ok n : forall ts l r, p_params n ts = Some (l, r) -> exists us, ts = us ++ r /\ spells_params us l.
Proof.
  induction n as [|n IH]; intros ts l r H; [discriminate|]. cbn [p_params] in H. destruct (expect TOK_ID ts) as [[t r1]|] eqn:E1.
  - apply expect_ok in E1. destruct E1 as [-> HT]. destruct (expect TOK_LISTSEP r1) as [[s r2]|] eqn:E2.
    + apply expect_ok in E2. destruct E2 as [-> HS]. destruct (p_params n r2) as [[l2 r3]|] eqn:E3; [|discriminate]. destruct l2 as [|x l2]; [discriminate|].
      injection H as <- <-. destruct (IH _ _ _ E3) as (us & -> & HP). exists (t :: s :: us). split; auto. constructor; auto. discriminate.
    + injection H as <- <-. exists [t]. split; auto. constructor; auto.
  - injection H as <- <-. exists []. split; auto. constructor.
Qed.
Lemma infix_ok t b : infix_of t = Some b -> infix t b.
Proof.
  unfold infix_of, infix. destruct (find _ infixes) as [[[ty v] b']|] eqn:E; [|discriminate]. cbn [option_map snd]. intro H. injection H as <-.
  apply find_some in E. destruct E as [HI E]. bsplit. apply is_ok in H. apply leq_ok in H0. subst. auto.
Qed.
Lemma operator_ok lv ts b r : operator lv ts = Some (b, r) -> exists o, ts = o :: r /\ infix o b /\ oplevel (t_type o) = lv.
Proof.
  destruct ts as [|t us]; [discriminate|]. cbn [operator]. destruct (Nat.eqb _ _) eqn:E; [|discriminate]. apply Nat.eqb_eq in E. destruct (infix_of t) eqn:EI; [|discriminate].
  intro H. injection H as <- <-. exists t. repeat split; auto. apply infix_ok; auto.
Qed.
Lemma left_ok lv : left_assocb lv = true -> left_assoc lv.
Proof. unfold left_assocb, left_assoc. intro H. apply existsb_exists in H. destruct H as (x & HI & E). apply Nat.eqb_eq in E. subst. auto. Qed.

Definition Pe n := forall lv ts e lim r, p_e n lv ts = Some (e, lim, r) -> exists us, ts = us ++ r /\ us <> [] /\ spells lv lim us e.
Definition Pchain n := forall lv e lim ts e' lim' r ts0, left_assoc lv -> spells lv lim ts0 e -> p_chain n lv e lim ts = Some (e', lim', r) ->
  exists us, ts = us ++ r /\ spells lv lim' (ts0 ++ us) e'.
Definition Pref n := forall e ts e' r ts0, spells_ref ts0 e -> p_ref n e ts = Some (e', r) -> exists us, ts = us ++ r /\ spells_ref (ts0 ++ us) e'.
Definition Pargs n := forall ts l r, p_args n ts = Some (l, r) -> exists us, ts = us ++ r /\ spells_args us l.
Definition Pfields n := forall ts l r, p_fields n ts = Some (l, r) -> exists us, ts = us ++ r /\ spells_fields us l.
Definition Pcmd n := forall ts s r, p_cmd n ts = Some (s, r) -> exists us, ts = us ++ r /\ spells_cmd us s.
Definition Pstat n := forall ts s f r, p_stat n ts = Some (s, f, r) -> exists us, ts = us ++ r /\ spells_stat us f s.
Definition Pbody n := forall ts s f r, p_body n ts = Some (s, f, r) -> exists us, ts = us ++ r /\ spells_body us f s.
Definition Pblock n := forall ts s f r, p_block n ts = Some (s, f, r) -> exists us, ts = us ++ r /\ spells_block us f s.
Definition Pstats n := forall ts s f r, p_stats n ts = Some (s, f, r) -> exists us, ts = us ++ r /\ spells_stats us f s.

(** One match of a parser after the other. *)
Ltac one := match goal with
  | H : (match expect ?ty ?r with _ => _ end) = Some _ |- _ =>
      let E := fresh "E" in let t := fresh "t" in let r' := fresh "r" in let T := fresh "T" in
      destruct (expect ty r) as [[t r']|] eqn:E; [apply expect_ok in E; destruct E as [-> T]|try discriminate H]
  | H : (match p_params ?n ?r with _ => _ end) = Some _ |- _ =>
      let E := fresh "E" in let l := fresh "l" in let r' := fresh "r" in let us := fresh "us" in let Q := fresh "Q" in
      destruct (p_params n r) as [[l r']|] eqn:E; [|discriminate H]; apply params_ok in E; destruct E as (us & -> & Q)
  | IH : Pe ?n, H : (match p_e ?n ?lv ?r with _ => _ end) = Some _ |- _ =>
      let E := fresh "E" in let l := fresh "e" in let lim := fresh "lim" in let r' := fresh "r" in let us := fresh "us" in let Q := fresh "Q" in let N := fresh "N" in
      destruct (p_e n lv r) as [[[l lim] r']|] eqn:E; [|discriminate H]; apply IH in E; destruct E as (us & -> & N & Q)
  | IH : Pargs ?n, H : (match p_args ?n ?r with _ => _ end) = Some _ |- _ =>
      let E := fresh "E" in let l := fresh "e" in let r' := fresh "r" in let us := fresh "us" in let Q := fresh "Q" in
      destruct (p_args n r) as [[l r']|] eqn:E; [|discriminate H]; apply IH in E; destruct E as (us & -> & Q)
  | IH : Pfields ?n, H : (match p_fields ?n ?r with _ => _ end) = Some _ |- _ =>
      let E := fresh "E" in let l := fresh "e" in let r' := fresh "r" in let us := fresh "us" in let Q := fresh "Q" in
      destruct (p_fields n r) as [[l r']|] eqn:E; [|discriminate H]; apply IH in E; destruct E as (us & -> & Q)
  | IH : Pcmd ?n, H : (match p_cmd ?n ?r with _ => _ end) = Some _ |- _ =>
      let E := fresh "E" in let l := fresh "e" in let r' := fresh "r" in let us := fresh "us" in let Q := fresh "Q" in
      destruct (p_cmd n r) as [[l r']|] eqn:E; [|discriminate H]; apply IH in E; destruct E as (us & ? & Q)
  | IH : Pstat ?n, H : (match p_stat ?n ?r with _ => _ end) = Some _ |- _ =>
      let E := fresh "E" in let l := fresh "e" in let lim := fresh "f" in let r' := fresh "r" in let us := fresh "us" in let Q := fresh "Q" in
      destruct (p_stat n r) as [[[l lim] r']|] eqn:E; [|discriminate H]; apply IH in E; destruct E as (us & -> & Q)
  | IH : Pbody ?n, H : (match p_body ?n ?r with _ => _ end) = Some _ |- _ =>
      let E := fresh "E" in let l := fresh "e" in let lim := fresh "f" in let r' := fresh "r" in let us := fresh "us" in let Q := fresh "Q" in
      destruct (p_body n r) as [[[l lim] r']|] eqn:E; [|discriminate H]; apply IH in E; destruct E as (us & -> & Q)
  | IH : Pblock ?n, H : (match p_block ?n ?r with _ => _ end) = Some _ |- _ =>
      let E := fresh "E" in let l := fresh "e" in let lim := fresh "f" in let r' := fresh "r" in let us := fresh "us" in let Q := fresh "Q" in
      destruct (p_block n r) as [[[l lim] r']|] eqn:E; [|discriminate H]; apply IH in E; destruct E as (us & -> & Q)
  | IH : Pstats ?n, H : (match p_stats ?n ?r with _ => _ end) = Some _ |- _ =>
      let E := fresh "E" in let l := fresh "e" in let lim := fresh "f" in let r' := fresh "r" in let us := fresh "us" in let Q := fresh "Q" in
      destruct (p_stats n r) as [[[l lim] r']|] eqn:E; [|discriminate H]; apply IH in E; destruct E as (us & -> & Q)
  end.
Ltac close H := injection H; clear H; intros; subst.
Ltac lists := cbn [app]; repeat (rewrite <- ?app_assoc; cbn [app]); reflexivity.
Ltac give us := exists us; split; [lists|].

Lemma all_ok n : Pe n /\ Pchain n /\ Pref n /\ Pargs n /\ Pfields n /\ Pcmd n /\ Pstat n /\ Pbody n /\ Pblock n /\ Pstats n.
Proof.
  induction n as [|n (Ie & Ic & Ir & Ia & If & Im & Is & Ib & Ik & It)]; [repeat split; repeat intro; discriminate|].
  assert (HU : forall lv lim us e, (1 <= lv < 12)%nat -> us <> [] -> spells (S lv) lim us e -> us <> [] /\ spells lv lim us e) by (intros; split; auto; constructor; auto).
  assert (HL : forall lv ts e lim r, (if left_assocb lv then match p_e n (S lv) ts with Some (e, lim, r) => p_chain n lv e lim r | None => None end else None) = Some (e, lim, r) ->
    exists us, ts = us ++ r /\ us <> [] /\ spells lv lim us e).
  { intros lv ts e lim r H. destruct (left_assocb lv) eqn:EL; [|discriminate]. apply left_ok in EL. one.
    assert (Hlv : (1 <= lv < 12)%nat) by (repeat (destruct EL as [<-|EL]; [lia|]); destruct EL).
    destruct (Ic _ _ _ _ _ _ _ us EL (g_up _ _ _ _ Hlv Q) H) as (us2 & -> & HS). give (us ++ us2). split; auto. destruct us; [congruence|discriminate]. }
  split; [|split; [|split; [|split; [|split; [|split; [|split; [|split; [|split]]]]]]]].
  - intros lv ts e lim r H. cbn [p_e] in H.
    destruct lv as [|[|[|[|[|[|[|[|[|[|[|[|[|lv]]]]]]]]]]]]]; try (apply HL; exact H).
    + (* 1 *) one.
      * one. close H. give (t :: us). split; [discriminate|]. apply g_not; auto.
      * apply Ie in H. destruct H as (us & -> & N & Q). give us. apply HU; auto; lia.
    + (* 3 *) one. destruct (operator 3 r0) as [[b r1]|] eqn:EO.
      * apply operator_ok in EO. destruct EO as (o & -> & HI & HO). one. close H. give (us ++ o :: us0). split; [destruct us; discriminate|]. eapply g_cmp; eauto.
      * close H. give us. apply HU; auto; lia.
    + (* 4 *) one.
      * one.
        -- close H. give [t; t0]. split; [discriminate|]. apply g_table0; auto.
        -- one. one. close H. give (t :: us ++ [t0]). split; [discriminate|]. apply g_table; auto.
      * apply Ie in H. destruct H as (us & -> & N & Q). give us. apply HU; auto; lia.
    + (* 8 *) one. destruct (Nat.ltb 8 lim0) eqn:EL; [apply Nat.ltb_lt in EL; destruct (operator 8 r0) as [[b r1]|] eqn:EO|].
      * apply operator_ok in EO. destruct EO as (o & -> & HI & HO). one. close H. give (us ++ o :: us0). split; [destruct us; discriminate|]. eapply g_pow; eauto.
      * close H. give us. apply HU; auto; lia.
      * close H. give us. apply HU; auto; lia.
    + (* 11 *) one.
      * one. close H. give (t :: us). split; [discriminate|]. apply g_bnot; auto.
      * apply Ie in H. destruct H as (us & -> & N & Q). give us. apply HU; auto; lia.
    + (* 12 *) destruct ts as [|t r0]; [discriminate|]. destruct (t_type t) eqn:ET; try discriminate H.
      * (* ID *) destruct (p_ref n (E_var (t_value t)) r0) as [[e' r1]|] eqn:ER; [|discriminate]. close H. destruct (Ir _ _ _ _ [t] (r_var _ ET) ER) as (us & -> & Q). give (t :: us). split; [discriminate|]. apply g_ref; auto.
      * (* CONST *) close H. give [t]. split; [discriminate|]. apply g_num; auto.
      * (* STRING *) close H. give [t]. split; [discriminate|]. apply g_str; auto.
      * (* NIL *) close H. give [t]. split; [discriminate|]. apply g_nil; auto.
      * (* FUN *) one. one. one. one. one. one. close H. give (t :: t0 :: us ++ t1 :: t2 :: us0 ++ [t3]). split; [discriminate|]. eapply g_lambda; eauto.
      * (* ADDSUB *) destruct (expect TOK_CONST r0) as [[c r1]|] eqn:EC.
        -- apply expect_ok in EC. destruct EC as [-> EC]. match type of H with (if ?b then _ else _) = _ => destruct b eqn:EB; [|discriminate] end. close H.
           give [t; c]. split; [discriminate|]. apply g_sign; auto. apply existsb_exists in EB. destruct EB as (s & HI & EB). apply leq_ok in EB. subst s. unfold sign_text. destruct HI as [<-|[<-|[]]]; auto.
        -- one. destruct us as [|u us]; [congruence|]. assert (HNc : t_type u <> TOK_CONST). { cbn [expect app] in EC. destruct (is TOK_CONST u) eqn:EI; [discriminate|]. apply is_not; auto. }
           destruct (list_eq_dec Z.eq_dec (t_value t) (bs "-")) as [EV|]; [|destruct (list_eq_dec Z.eq_dec (t_value t) (bs "+")) as [EV|]; [|discriminate]]; close H; give (t :: u :: us); (split; [discriminate|]).
           ++ apply g_neg; auto.
           ++ apply g_pos; auto.
      * (* PAROPEN *) one. one. close H. give (t :: us ++ [t0]). split; [discriminate|]. eapply g_paren; eauto.
  - intros lv e lim ts e' lim' r ts0 HLa HS H. cbn [p_chain] in H. destruct (Nat.ltb lv lim) eqn:EL; [apply Nat.ltb_lt in EL; destruct (operator lv ts) as [[b r1]|] eqn:EO|].
    + apply operator_ok in EO. destruct EO as (o & -> & HI & HO). one. assert (HC : spells lv lim0 (ts0 ++ o :: us) (E_bin b e e0)) by (eapply g_chain; eauto).
      destruct (Ic _ _ _ _ _ _ _ _ HLa HC H) as (us2 & -> & HS2). give (o :: us ++ us2). rewrite <- app_assoc in HS2. exact HS2.
    + close H. give (@nil token). rewrite app_nil_r. auto.
    + close H. give (@nil token). rewrite app_nil_r. auto.
  - intros e ts e' r ts0 HS H. cbn [p_ref] in H. one.
    { one. destruct (Ir _ _ _ _ _ (r_dot _ _ _ _ HS T T0) H) as (us & -> & Q). give (t :: t0 :: us). rewrite <- app_assoc in Q. exact Q. }
    one. { one. one. destruct (Ir _ _ _ _ _ (r_idx _ _ _ _ _ _ _ HS T Q T0) H) as (us2 & -> & Q2). give (t :: us ++ t0 :: us2). rewrite <- app_assoc in Q2. cbn [app] in Q2. rewrite <- app_assoc in Q2. exact Q2. }
    one. { one.
      - destruct (Ir _ _ _ _ _ (r_call0 _ _ _ _ HS T T0) H) as (us & -> & Q). give (t :: t0 :: us). rewrite <- app_assoc in Q. exact Q.
      - one. one. destruct (Ir _ _ _ _ _ (r_call _ _ _ _ _ _ HS T Q T0) H) as (us2 & -> & Q2). give (t :: us ++ t0 :: us2). rewrite <- app_assoc in Q2. cbn [app] in Q2. rewrite <- app_assoc in Q2. exact Q2. }
    close H. give (@nil token). rewrite app_nil_r. auto.
  - intros ts l r H. cbn [p_args] in H. one. one.
    + one. close H. give (us ++ t :: us0). eapply a_more; eauto.
    + close H. give us. eapply a_one; eauto.
  - intros ts l r H. cbn [p_fields] in H. one.
    match type of H with (match ?m with _ => _ end) = _ => destruct m as [[k r1]|] eqn:EK; [|discriminate] end.
    assert (HK : exists tk, r0 = tk :: r1 /\ spells_key tk k).
    { destruct (expect TOK_ID r0) as [[u q]|] eqn:E1.
      - apply expect_ok in E1. destruct E1 as [-> E1]. injection EK as <- <-. exists u. split; auto. constructor; auto.
      - destruct (expect TOK_CONST r0) as [[u q]|] eqn:E2; [|discriminate]. apply expect_ok in E2. destruct E2 as [-> E2]. injection EK as <- <-. exists u. split; auto. constructor; auto. }
    clear EK. destruct HK as (tk & -> & HK). one. one. one.
    + one. close H. give (t :: tk :: t0 :: us ++ t1 :: us0). eapply f_more; eauto.
    + close H. give (t :: tk :: t0 :: us). eapply f_one; eauto.
  - intros ts s r H. cbn [p_cmd] in H. one.
    { one. close H. give (t :: us). eapply c_return; eauto. }
    one. one.
    { one. close H. give (t :: t0 :: us). eapply c_assign; eauto. }
    destruct (p_ref n (E_var (t_value t)) r0) as [[e' r1]|] eqn:ER; [|discriminate]. destruct (Ir _ _ _ _ [t] (r_var _ T) ER) as (us & -> & Q).
    destruct e'; try discriminate H.
    + one. one. close H. give (t :: us ++ t0 :: us0). apply (c_put ([t] ++ us) _ _ _ lim); auto.
    + close H. give (t :: us). apply c_call. exact Q.
  - intros ts s f r H. cbn [p_stat] in H. destruct ts as [|t r0]; [discriminate|].
    assert (HC : match p_cmd n (t :: r0) with Some (s, r) => Some (s, 0%nat, r) | None => None end = Some (s, f, r) -> exists us, t :: r0 = us ++ r /\ spells_stat us f s).
    { intro HH. one. injection HH; intros; subst. exists us. split; auto. constructor; auto. }
    destruct (t_type t) eqn:ET; try (apply HC; exact H).
    + (* VAR *) one. one.
      * one. close H. give (t :: t0 :: t1 :: us). eapply s_varinit; eauto.
      * close H. give [t; t0]. apply s_var; auto.
    + (* IF *) one. one. one. one. destruct (Nat.eqb f0 0) eqn:E0.
      * apply Nat.eqb_eq in E0. subst f0. one.
        -- one. close H. give (t :: t0 :: us ++ t1 :: us0 ++ t2 :: us1). eapply s_ifelse; eauto.
        -- close H. give (t :: t0 :: us ++ t1 :: us0). change 1%nat with (Nat.max 0 1). eapply s_if; eauto.
      * close H. give (t :: t0 :: us ++ t1 :: us0). eapply s_if; eauto.
    + (* FUN *) one. one. one. one. one. one. one. close H. give (t :: t0 :: t1 :: us ++ t2 :: t3 :: us0 ++ [t4]). eapply s_fun; eauto.
    + (* RETURN *) destruct (expect TOK_BLOCKCLOSE r0) as [p|] eqn:EB; [|apply HC; exact H]. close H. give [t]. apply s_return; auto.
    + (* FOR *) one. one. subst. one. one. one. one. subst. one. one. close H. give (t :: t0 :: us ++ t1 :: us0 ++ t2 :: us1 ++ t3 :: us2). eapply s_for; eauto.
    + (* WHILE *) one. one. one. one. close H. give (t :: t0 :: us ++ t1 :: us0). eapply s_while; eauto.
  - intros ts s f r H. cbn [p_body] in H. one.
    + one. one. close H. give (t :: us ++ [t0]). eapply b_block; eauto.
    + one. close H. give us. apply b_single; auto.
  - intros ts s f r H. cbn [p_block] in H. destruct (expect TOK_BLOCKCLOSE ts) as [p|] eqn:EB.
    + close H. give (@nil token). constructor.
    + apply It in H. destruct H as (us & -> & Q). give us. constructor; auto.
  - intros ts s f r H. cbn [p_stats] in H. one. match type of H with (if ?b then _ else _) = _ => destruct b eqn:EB end.
    + close H. give us. constructor; auto.
    + destruct (Nat.eqb f0 2) eqn:E2; [discriminate|]. apply Nat.eqb_neq in E2. one. close H. give (us ++ us0). eapply ss_more; eauto.
Qed.
(** The program that tokens spell. *)
Lemma program_of_ok n ts l : program_of n ts = Some l -> spells_script ts l.
Proof.
  unfold program_of, spells_script. destruct (p_stats n (filter no_statend ts)) as [[[l' f] r]|] eqn:E; [|discriminate]. destruct r; [|discriminate].
  destruct (Nat.eqb f 2) eqn:E2; [discriminate|]. apply Nat.eqb_neq in E2. intro H. injection H as <-. destruct (all_ok n) as (_ & _ & _ & _ & _ & _ & _ & _ & _ & It).
  apply It in E. destruct E as (us & E & Q). rewrite app_nil_r in E. rewrite E. eauto.
Qed.

(** The file [name] holds the script [l], as C94, C101 and C102 ask. *)
Definition holds_script (strtof : list Z -> option Z) (open : list Z -> option (list Z * list Z)) (name : list Z) (l : stats) : Prop :=
  exists path text ps ts,
    open name = Some (path, text) /\ text ++ [NL] = layout ps /\ reads open [path] path [] ps ts /\
    (forall t, In t ts -> t_line t < 2 ^ 63 /\ t_col t < 2 ^ 63 /\ plain_path (t_file t)) /\
    spells_script ts l /\ ok_script strtof l = true /\
    NoDup (map fn_id (functions l)) /\ zlen (nodup (list_eq_dec Z.eq_dec) (words l)) <= 65534.
Lemma plainb_ok p : plainb p = true -> plain_path p.
Proof.
  unfold plainb, plain_path. intro H. bsplit. split.
  - apply Forall_forall. intros x Hx. rewrite forallb_forall in H. specialize (H x Hx). cbn beta in H. bsplit. auto.
  - intros g x ->. rewrite rev_app_distr in H0. cbn in H0. bsplit. auto.
Qed.
Lemma distinct_ids_ok l : distinct_ids l = true -> NoDup l.
Proof.
  induction l as [|i r IH]; cbn [distinct_ids]; intro H; constructor; bsplit; auto. intro HI. assert (existsb (Z.eqb i) r = true); [|congruence].
  apply existsb_exists. exists i. split; auto. apply Z.eqb_refl.
Qed.
Lemma script_of_ok strtof open n name l : script_of strtof open n name = Some l -> holds_script strtof open name l.
Proof.
  unfold script_of, holds_script. intro H. destruct (open name) as [[path text]|]; [|discriminate]. destruct (tokens_of open n path text) as [ts|] eqn:ET; [|discriminate].
  destruct (forallb small_token ts) eqn:EF; [|discriminate]. destruct (program_of n ts) as [l'|] eqn:EP; [|discriminate].
  match type of H with (if ?b then _ else _) = _ => destruct b eqn:EB; [|discriminate] end. injection H as ->. bsplit.
  apply tokens_of_ok in ET. destruct ET as (ps & E1 & E2). exists path, text, ps, ts. split; auto. split; auto. split; auto. split.
  { intros t Ht. rewrite forallb_forall in EF. specialize (EF t Ht). unfold small_token in EF. bsplit. repeat match goal with HH : (_ <? _) = true |- _ => apply Z.ltb_lt in HH end. split; auto. split; auto. apply plainb_ok; auto. }
  split; [eapply program_of_ok; eauto|]. split; auto. split; [apply distinct_ids_ok; auto|]. apply Z.leb_le; auto.
Qed.
