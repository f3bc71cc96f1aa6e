(** The assembly file the compiler writes for a script. *)
From Coq Require Import String Sorting.Permutation Sorting.Sorted.
From Verif Require Import Base ListLemmas Dict DictSpec DictProofs PDict PDictKeys Strman StrmanProofs Obj Text TextProofs Lex Instr Asm AsmSpec Vm Load PropsLoad
  Parser ParserFuel Source Gen GenExt PgBase PgSym PgExpr PgOps PgRef PgFun PgStat.
Local Open Scope Z_scope. Local Open Scope list_scope.

Ltac Zify.zify_post_hook ::= idtac.

(** ** The program *)
Definition gdefs (g : gst) : list (Z * str) :=
  flat_map (fun gc => match gc_name gc with
                      | Some x => match index x (g_strs g) with Some p => [(p, labname (gc_label gc))] | None => [] end
                      | None => []
                      end) (g_chunks g).
Definition chunk_lines (gc : gchunk) : list aline := L_blank :: lab (gc_label gc) :: gc_code gc.
Definition exitpoint : str := bs "@__exitpoint".
Definition main_lines (code : list aline) : list aline := L_blank :: lab 0 :: code ++ [L_blank; L_label exitpoint None; ins I_DONE].
Definition gen_body (l : stats) : list aline :=
  main_lines (fst (gen_script l)) ++ concat (map chunk_lines (g_chunks (snd (gen_script l)))).
Definition gen_program (l : stats) : list aline :=
  let g := snd (gen_script l) in
  program (g_strs g) (L_blank :: concat (map def_code (gdefs g)) ++ ins I_NOP :: gen_body l).

(** ** Strings by position *)
Definition by_pos (a b : str * Z) : Prop := snd a <= snd b.
Lemma insert_pos_in e l x : In x (insert_pos e l) <-> x = e \/ In x l.
Proof. induction l as [|f r IH]; cbn [insert_pos]; [cbn; intuition auto|]. destruct (snd e <=? snd f); cbn [In]; [intuition auto|]. rewrite IH. intuition auto. Qed.
Lemma insert_pos_perm e l : Permutation (e :: l) (insert_pos e l).
Proof.
  induction l as [|f r IH]; cbn [insert_pos]; auto. destruct (snd e <=? snd f); auto. eapply perm_trans; [apply perm_swap|]. constructor. exact IH.
Qed.
Lemma insert_pos_sorted e l : StronglySorted by_pos l -> StronglySorted by_pos (insert_pos e l).
Proof.
  induction l as [|f r IH]; intro H; cbn [insert_pos]; [repeat constructor|]. inversion H as [|? ? HS HF]; subst. destruct (snd e <=? snd f) eqn:E.
  - constructor; auto. constructor; [unfold by_pos; lia|]. eapply Forall_impl; [|exact HF]. unfold by_pos. intros. lia.
  - constructor; auto. apply Forall_forall. intros x Hx. apply insert_pos_in in Hx as [->|Hx]; [unfold by_pos; lia|]. rewrite Forall_forall in HF. auto.
Qed.
Lemma sort_pos_ok l : Permutation l (sort_pos l) /\ StronglySorted by_pos (sort_pos l).
Proof.
  induction l as [|e l (IH1 & IH2)]; cbn; [split; constructor|]. split; [|apply insert_pos_sorted; auto].
  eapply perm_trans; [apply perm_skip, IH1|apply insert_pos_perm].
Qed.
Fixpoint number (n : Z) (l : list str) : list (str * Z) := match l with [] => [] | s :: r => (s, n) :: number (n + 1) r end.
Lemma number_in l : forall n x, In x (number n l) <-> exists k, nth_error l k = Some (fst x) /\ snd x = n + Z.of_nat k.
Proof.
  induction l as [|s r IH]; intros n x; cbn [number In].
  - split; [intros []|intros ([|k] & H & _); discriminate].
  - rewrite IH. split.
    + intros [<-|(k & H1 & H2)]; [exists O; cbn; split; auto; lia|]. exists (S k). split; auto. lia.
    + intros ([|k] & H1 & H2); cbn in H1; [left; inversion H1; destruct x as [y z]; cbn in *; subst; f_equal; lia|]. right. exists k. split; auto. lia.
Qed.
Lemma sorted_unique (b : list str) : forall n a, Permutation a (number n b) -> StronglySorted by_pos a -> a = number n b.
Proof.
  induction b as [|s b IH]; intros n a HP HS; cbn [number] in *.
  - apply Permutation_sym, Permutation_nil in HP. auto.
  - destruct a as [|y a]; [apply Permutation_nil in HP; discriminate|]. inversion HS as [|? ? HS' HF]; subst.
    assert (Ey : y = (s, n)).
    { assert (HY : In y ((s, n) :: number (n + 1) b)) by (eapply Permutation_in; [exact HP|left; auto]).
      assert (HX : In (s, n) (y :: a)) by (eapply Permutation_in; [apply Permutation_sym; exact HP|left; auto]).
      destruct HY as [->|HY]; auto. destruct HX as [<-|HX]; auto. rewrite Forall_forall in HF. specialize (HF _ HX). unfold by_pos in HF. cbn [snd] in HF.
      apply number_in in HY as (k & _ & HY). lia. }
    subst y. f_equal. apply IH; auto. eapply Permutation_cons_inv; eauto.
Qed.
Lemma number_fst l : forall n, map fst (number n l) = l.
Proof. induction l as [|s r IH]; intro n; cbn; [auto|]. f_equal. apply IH. Qed.
Lemma index_nth x l : forall i, index x l = Some i -> nth_error l (Z.to_nat i) = Some x.
Proof.
  induction l as [|y r IH]; intros i; cbn [index]; [discriminate|]. destruct (same x y) eqn:E.
  - intro H; inversion H; subst. apply same_eq in E. subst. reflexivity.
  - destruct (index x r) as [j|] eqn:EJ; [|discriminate]. intro H; inversion H; subst. apply index_range in EJ as HR. specialize (IH _ eq_refl).
    replace (Z.to_nat (j + 1)) with (S (Z.to_nat j)) by lia. exact IH.
Qed.
Lemma nth_index l : NoDup l -> forall k x, nth_error l k = Some x -> index x l = Some (Z.of_nat k).
Proof.
  induction 1 as [|y r HN HD IH]; intros [|k] x Hx; cbn in Hx; try discriminate; cbn [index].
  - inversion Hx; subst. rewrite same_refl. reflexivity.
  - rewrite (proj2 (same_neq x y)) by (intros ->; apply HN; eapply nth_error_In; eauto). rewrite (IH _ _ Hx). f_equal. lia.
Qed.
Lemma nodupk_nodup (es : list (str * Z)) : NoDupK str_eqb es -> NoDup es.
Proof.
  induction es as [|e es IH]; [constructor|].
  intro H. destruct H as [H3 H4]. constructor; auto. intro H. specialize (H3 _ H). rewrite (proj2 (str_eqb_eq _ _)) in H3 by reflexivity. discriminate.
Qed.
Lemma strings_sorted d l : strs_ok d l -> map fst (sort_pos (pentries d)) = l.
Proof.
  intros (W & ND & HG & HS & _). destruct (sort_pos_ok (pentries d)) as [H1 H2]. rewrite (sorted_unique l 0 (sort_pos (pentries d))); auto using number_fst.
  eapply perm_trans; [apply Permutation_sym; exact H1|]. apply NoDup_Permutation.
  - apply nodupk_nodup. exact (entries_nodup _ _ _ W).
  - assert (HH : forall n, NoDup (number n l)); [|apply HH]. clear -ND. induction ND as [|s r HN HD IH]; intro n; cbn [number]; constructor; auto.
    intro H. apply number_in in H as (k & H & _). apply HN. eapply nth_error_In; eauto.
  - intros [x p]. rewrite number_in. cbn [fst snd]. split.
    + intro H. assert (E : str_get d x = Some p) by (apply (get_in _ _ _ good_str); auto; exists x; split; auto; apply str_eqb_eq; auto). rewrite HG in E. exists (Z.to_nat p). apply index_range in E as HR.
      split; [apply index_nth; auto|lia].
    + intros (k & H3 & H4). assert (E : str_get d x = Some p). { rewrite HG. rewrite (nth_index l ND k x H3). f_equal. lia. }
      apply (get_in _ _ _ good_str) in E as (k' & E1 & E2); auto. apply str_eqb_eq in E2. subst k'. exact E1.
Qed.

(** ** parse_script *)
Lemma names_top FN l : incl (map fst (defined l)) FN -> (forall x, In x (declared l) -> ~ In x FN) -> names_ss FN Top l.
Proof.
  induction l as [|s l IH]; intros H1 H2; cbn [names_ss]; auto.
  assert (EA : after Top s = Top) by (destruct s; reflexivity). rewrite EA. split.
  - destruct s; cbn [names_s declared defined map fst] in *; auto; try (apply H2; left; auto). apply H1. left; auto.
  - apply IH; destruct s; cbn [declared defined map fst] in *; auto; try (intros y Hy; apply H2; right; exact Hy). intros y Hy. apply H1. right. exact Hy.
Qed.
Section S.
Variable strtof : list Z -> option Z.
Lemma names_script l : ok_script strtof l = true -> names_ss (map fst (defined l)) Top l.
Proof.
  unfold ok_script. intro H. apply andb_true_iff in H as [_ H]. apply names_top; [apply incl_refl|]. intros x Hx HI.
  rewrite forallb_forall in H. specialize (H _ Hx). apply negb_true_iff in H. apply memb_in in HI. congruence.
Qed.

Lemma parse_script_ok toks more l code g : spells_script toks l -> ok_script strtof l = true -> Forall tok_fine (filter no_statend toks) ->
  gen_script l = (code, g) -> zlen (g_strs g) <= 65535 ->
  exists n st, (forall k, (n <= k)%nat -> parse_script k [] toks more = Ok (Some st)) /\
    strs_ok (p_strs st) (g_strs g) /\
    exists main cs, p_chunks st = mkChunk 0 None main :: cs /\ appends [] main (code ++ [L_blank; L_label exitpoint None; ins I_DONE]) /\
      Forall2 (cmatch (g_strs g)) cs (g_chunks g).
Proof.
  intros (f & HS & HF) HO HT HG HL. pose proof (script_claim strtof _ _ _ HS) as HC.
  destruct (next_tok_filter toks) as [E1 E2]. unfold parse_script. destruct (next_tok toks) as [t r] eqn:EN. cbn [fst snd] in *. inversion E1; subst t. clear E1.
  set (st0 := mkP (cur (filter no_statend toks)) r more 0 (Parser.strs_new []) [] [] []).
  set (st1 := chunk_push (symt_push st0) None).
  assert (HNE : t_type (cur (filter no_statend toks)) <> TOK_EOF).
  { destruct (filter no_statend toks) as [|t ts] eqn:EF; [destruct first_all as (_ & _ & _ & _ & _ & _ & _ & _ & HFA); destruct (HFA _ _ _ HS) as (? & ? & ? & _); discriminate|]. inversion HT as [|? ? (A & _)]; subst. exact A. }
  assert (HA : at_ st1 (filter no_statend toks ++ [])) by (rewrite app_nil_r; split; [reflexivity|split; [exact E2|exact HT]]).
  assert (HP : PS [mkChunk 0 None []] (map fst (defined l)) st1 (mkG 1 [] []) []).
  { constructor; cbn [g_lab g_strs g_chunks].
    - reflexivity.
    - apply PgSym.strs_new.
    - exists symtab_new. split; [reflexivity|apply base_new].
    - exists []. split; [reflexivity|constructor].
    - intros c s [<-|[]] H. discriminate. }
  apply andb_true_iff in HO as HO'. destruct HO' as [HO1 _].
  destruct (HC _ _ _ _ _ _ _ _ _ HO1 HA (or_introl eq_refl) (fun E => False_ind _ (HF E)) HP eq_refl (names_script _ HO) HG HL)
    as (st2 & j & st3 & us' & P1 & P2 & (T1 & T2 & T3) & T4 & T5).
  destruct (parses_join _ _ _ _ _ _ P1 P2) as (n & Q1 & Q2).
  set (st4 := emit (emit st3 (NL :: bs "@__exitpoint")) (i0 "done")).
  exists (S n), (chunk_pop st4 0 []). split; [|split].
  - intros k Hk. destruct k as [|k]; [lia|]. replace (tok_eqb (ty st0) TOK_EOF) with false by (symmetry; apply tok_eqb_neq; exact HNE).
    fold st1. cbn [parse Parser.body]. rewrite (parses_at _ _ _ _ Q1) by lia. cbn [pbind]. rewrite (parses_at _ _ _ _ Q2) by lia. reflexivity.
  - apply T2.
  - destruct T2 as [_ _ _ (cs & D1 & D2) _]. exists (p_code st4), cs. split; [|split; auto].
    + unfold chunk_pop. change (p_chunks st4) with (p_chunks st3). rewrite D1. reflexivity.
    + eapply appends_app; [exact T3|]. change [L_blank; L_label exitpoint None; ins I_DONE] with ([L_blank; L_label exitpoint None] ++ [ins I_DONE]).
      eapply appends_app with (b := p_code (emit st3 (NL :: bs "@__exitpoint"))).
      * exists [L_blank; L_label exitpoint (Some (tokpos (p_tok st3)))]. split; [|split].
        -- cbn [emit p_code set_code]. f_equal. unfold text. cbn [map concat line_text]. rewrite app_nil_r. reflexivity.
        -- reflexivity.
        -- constructor; [exact I|]. constructor; [exact (tokpos_fine _ _ T1)|constructor].
      * eapply (appends_line (emit st3 (NL :: bs "@__exitpoint"))); [apply emit_at; exact T1| |exact I]. apply spelled_i0. reflexivity.
Qed.

(** ** write_asm *)
Lemma text_app' a b : text (a ++ b) = text a ++ text b. Proof. apply text_app. Qed.
Lemma def_text p n : (i1 "pushs" (print_d p) ++ [NL]) ++ i1 "pushcn" (labref n) ++ NL :: i0 "gstore" ++ [NL] = text (def_code (p, labname n)).
Proof.
  unfold text, def_code. cbn [map concat fst snd line_text arg_txt dbg_text]. rewrite app_nil_r. unfold i1, i0. rewrite <- !app_assoc. cbn [app].
  repeat (rewrite <- !app_assoc; cbn [app]). reflexivity.
Qed.
Lemma registers_ok strs cs gs : Forall2 (cmatch strs) cs gs ->
  registers cs = Ok (text (concat (map def_code (flat_map (fun gc => match gc_name gc with
                      | Some x => match index x strs with Some p => [(p, labname (gc_label gc))] | None => [] end
                      | None => []
                      end) gs)))).
Proof.
  induction 1 as [|c gc cs gs (H1 & H2 & H3) _ IH]; [reflexivity|]. cbn [registers flat_map]. rewrite IH. unfold chunk_register.
  destruct (gc_name gc) as [x|]; cbn [csym_ok] in H3.
  - destruct H3 as (p & -> & H3). rewrite H3. cbn [cs_alive cs_sym sy_global sy_pos bind app map concat]. rewrite text_app, H1. f_equal. f_equal. apply def_text.
  - rewrite H3. reflexivity.
Qed.
Lemma prints_ok strs cs gs : Forall2 (cmatch strs) cs gs ->
  exists ls, concat (map chunk_print cs) = text ls /\ map nodbg ls = concat (map chunk_lines gs) /\ Forall dbg_fine ls.
Proof.
  induction 1 as [|c gc cs gs (H1 & (ls & H2 & H3 & H4) & _) _ (ls2 & I1 & I2 & I3)]; [exists []; repeat split; constructor|].
  exists ((L_blank :: lab (gc_label gc) :: ls) ++ ls2). cbn [map concat]. rewrite text_app, I1, map_app, I2. split; [|split].
  - f_equal. unfold chunk_print. rewrite H1, H2. unfold text. cbn [map concat app]. unfold lab. cbn [line_text dbg_text app]. rewrite <- app_assoc. reflexivity.
  - f_equal. cbn [map]. rewrite H3. reflexivity.
  - apply Forall_app. split; auto. repeat constructor. exact H4.
Qed.
Lemma strings_text (es : list (str * Z)) : concat (map (fun e => 39 :: fst e ++ [NL]) es) = text (map L_string (map fst es)).
Proof. unfold text. rewrite !map_map. reflexivity. Qed.
Lemma script_text n ss ds ml pl :
  text (L_count n :: map L_string ss ++ L_blank :: ds ++ ins I_NOP :: (L_blank :: lab 0 :: ml) ++ pl) =
  33 :: print_u n ++ [NL] ++ text (map L_string ss) ++ [NL] ++ text ds ++ i0 "nop" ++ [NL] ++ (NL :: labref 0 ++ [NL] ++ text ml) ++ text pl.
Proof.
  assert (EC : forall a b, text (a :: b) = line_text a ++ text b) by reflexivity. rewrite EC, text_app, EC, text_app, EC, text_app, EC, EC.
  unfold lab, ins. cbn [line_text arg_txt dbg_text app]. rewrite <- !app_assoc. reflexivity.
Qed.
Theorem compile_text toks more l : spells_script toks l -> ok_script strtof l = true -> Forall tok_fine (filter no_statend toks) ->
  zlen (g_strs (snd (gen_script l))) <= 65535 ->
  exists n p, (forall k, (n <= k)%nat -> compile k [] toks more = Ok (Some (text p))) /\ map nodbg p = gen_program l /\ Forall dbg_fine p /\
    NoDup (g_strs (snd (gen_script l))) /\ Forall chars_ok (g_strs (snd (gen_script l))).
Proof.
  intros HS HO HT HL. unfold gen_program, gen_body. destruct (gen_script l) as [code g] eqn:HG. cbn [fst snd] in *.
  destruct (parse_script_ok toks more l code g HS HO HT HG HL) as (n & st & HP & HSt & main & cs & HC & (ml & HM1 & HM2 & HM3) & HF).
  destruct (prints_ok _ _ _ HF) as (pl & P1 & P2 & P3). pose proof HSt as (W & ND & HGt & HSz & HCh).
  exists n, (L_count (zlen (g_strs g)) :: map L_string (g_strs g) ++ L_blank :: concat (map def_code (gdefs g)) ++ ins I_NOP :: (L_blank :: lab 0 :: ml) ++ pl).
  split; [|split; [|split; [|split; auto]]].
  - intros k Hk. unfold compile. rewrite (HP _ Hk). cbn [bind]. unfold write_asm. rewrite HC. cbn [registers chunk_register c_sym bind]. rewrite (registers_ok _ _ _ HF).
    cbn [bind]. do 2 f_equal. rewrite script_text, HSz. change (33 :: ?a) with ([33] ++ a). do 3 f_equal.
    pose proof (strings_text (sort_pos (pentries (p_strs st)))) as HST. rewrite (strings_sorted _ _ HSt) in HST. apply (f_equal2 (@app Z) HST).
    cbn [map concat]. rewrite P1. unfold chunk_print. cbn [c_label c_code]. rewrite HM1. reflexivity.
  - unfold program. cbn [map]. f_equal. rewrite map_app. f_equal; [rewrite map_map; apply map_ext; reflexivity|]. cbn [map]. f_equal. rewrite map_app. f_equal.
    + rewrite concat_map, map_map. f_equal.
    + cbn [map]. f_equal. rewrite map_app. rewrite P2. f_equal. cbn [map]. unfold main_lines. do 2 f_equal. exact HM2.
  - constructor; [exact I|]. apply Forall_app. split; [apply Forall_forall; intros x Hx; apply in_map_iff in Hx as (y & <- & _); exact I|].
    constructor; [exact I|]. apply Forall_app. split; [|constructor; [exact I|]; apply Forall_app; split; auto; repeat constructor; auto].
    apply Forall_forall. intros x Hx. apply in_concat in Hx as (q & H1 & H2). apply in_map_iff in H1 as (d & <- & _). destruct H2 as [<-|[<-|[<-|[]]]]; exact I.
Qed.
End S.
