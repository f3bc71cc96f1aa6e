(** The parser emits the code of Gen.v: functions and blocks. *)
From Coq Require Import String.
From Verif Require Import Base ListLemmas Dict DictSpec DictProofs PDict PDictKeys Strman StrmanProofs Text TextProofs Lex Instr Asm AsmSpec
  Parser ParserFuel Source Gen GenExt PgBase PgSym PgExpr PgOps PgRef.
Local Open Scope Z_scope. Local Open Scope list_scope.

Ltac Zify.zify_post_hook ::= idtac.

Arguments to_trans {P FN st st1 st2 r1 r2 c1 c2 g1 g2 us us2} _ _.
Arguments to_at {P FN st st' rest code g' us} _.
Arguments to_PS {P FN st st' rest code g' us} _.
Lemma to_eq P FN st st' r c c' g us : to P FN st st' r c g us -> c = c' -> to P FN st st' r c' g us.
Proof. intros H <-. exact H. Qed.
Lemma to_adv' P FN st st' t ts c g us : to P FN st st' (t :: ts) c g us -> to P FN st' (adv st') ts [] g us.
Proof. intro H. eapply to_adv; [exact (to_at H)|exact (to_PS H)]. Qed.
Lemma to_fetch P FN st st' t ts c g us k : to P FN st st' (t :: ts) c g us -> fetch st' k = k (adv st').
Proof. intro H. eapply fetch_adv; [exact (to_at H)|discriminate]. Qed.
Lemma to_match P FN st st' t ts c g us T k : to P FN st st' (t :: ts) c g us -> t_type t = T -> tokmatch T st' k = k.
Proof. intros H E. eapply tokmatch_ok; [exact (to_at H)|exact E]. Qed.

(** ** A function begins and ends *)
Lemma PS_fun_start P FN st g us sy : PS P FN st g us -> (forall s, sy = Some s -> In (cs_name s) FN) ->
  PS (p_chunks st ++ [mkChunk (p_labels st) sy []]) FN (chunk_push st sy) (mkG (g_lab g + 1) (g_strs g) []) us.
Proof.
  intros [A B C D E] HS. constructor; cbn [chunk_push p_labels p_strs p_symst p_chunks set_labels set_code set_chunks g_lab g_strs g_chunks]; auto.
  - lia.
  - exists []. rewrite app_nil_r. split; auto.
  - intros c s HI. apply in_app_or in HI as [HI|[<-|[]]]; [eapply E; eauto|apply HS].
Qed.
Lemma upd_mid {A} (a : list A) x b y : upd (a ++ x :: b) (length a) y = a ++ y :: b.
Proof. induction a as [|z a IH]; cbn; [reflexivity|]. f_equal. exact IH. Qed.
Lemma nth_mid {A} (a : list A) x b : nth_error (a ++ x :: b) (length a) = Some x.
Proof. induction a as [|z a IH]; cbn; auto. Qed.
Lemma PS_fun_end P FN st g us st2 sy g1 u name fn code old n :
  PS P FN st g us -> n = g_lab g -> PS (p_chunks st ++ [mkChunk n sy []]) FN st2 g1 (u :: us) -> ext (mkG (g_lab g + 1) (g_strs g) []) g1 ->
  appends [] (p_code st2) code -> csym_ok (g_strs g1) name sy ->
  PS P FN (chunk_pop (symt_pop st2) (length (p_chunks st)) old) (mkG (g_lab g1) (g_strs g1) (g_chunks g ++ mkGc n name fn code :: g_chunks g1)) us.
Proof.
  intros H0 En H2 (( sl & ES) & _) HA HC. apply PS_pop in H2. cbn [g_strs] in ES. destruct (ps_chunks _ _ _ _ _ H0) as (cs & D1 & D2).
  destruct H2 as [A2 B2 C2 (cs2 & D3 & D4) E2]. unfold chunk_pop. rewrite D3. rewrite <- app_assoc. cbn [app]. rewrite nth_mid, upd_mid. cbn [c_label c_sym].
  constructor; cbn [p_labels p_strs p_symst p_chunks set_labels set_code set_chunks g_lab g_strs g_chunks]; auto.
  - exists (cs ++ mkChunk n sy (p_code (symt_pop st2)) :: cs2). rewrite D1, <- app_assoc. split; auto. apply Forall2_app; [rewrite ES; apply cmatch_ext; auto|].
    constructor; auto. split; [reflexivity|]. split; auto.
  - intros c s HI Hs. apply in_app_or in HI as [HI|[<-|HI]].
    + eapply E2; eauto. rewrite D3. apply in_or_app. left. apply in_or_app. auto.
    + cbn [c_sym] in Hs. eapply (E2 (mkChunk n sy [])); eauto. rewrite D3. apply in_or_app. left. apply in_or_app. right. left. auto.
    + eapply E2; eauto. rewrite D3. apply in_or_app. right. auto.
Qed.

(** ** Parameters *)
Lemma base_global P FN st g us x s : PS P FN st g us -> sym_lookup x us = None -> sym_lookup x (p_symst st) = Some s -> sy_global s = true.
Proof.
  intros H HN HS. destruct (ps_sym _ _ _ _ _ H) as (base & E & _ & HB). rewrite E, lookup_app, HN in HS. cbn [sym_lookup] in HS.
  destruct (symt_get base x) eqn:EB; [|discriminate]. inversion HS; subst. apply HB in EB. apply EB.
Qed.
Lemma local_add P FN st g t lower l x :
  PS P FN st g (t :: lower) -> scope_ok (t :: lower) (Local l) -> few (l ++ [x]) = true ->
  let st' := match sym_lookup x (p_symst st) with
             | Some y => if sy_global y then sym_add st x SCOPE_LOCAL else st
             | None => sym_add st x SCOPE_LOCAL end in
  exists t', PS P FN st' g (t' :: lower) /\ scope_ok (t' :: lower) (Local (l ++ [x])) /\ p_tok st' = p_tok st /\ p_rest st' = p_rest st /\ p_code st' = p_code st.
Proof.
  intros HP HS HF st'. destruct (PS_local P FN st g t lower x SCOPE_LOCAL HP (or_introl eq_refl)) as (st1 & E1 & H1 & H2 & H3 & H4).
  assert (EST : st' = st1).
  { unfold st'. destruct (sym_lookup x (p_symst st)) as [s|] eqn:EL; auto. rewrite (base_global _ _ _ _ _ x s HP); auto.
    rewrite (lookup_scope x _ _ HS). cbn [slot option_map]. replace (index x l) with (@None Z); auto. symmetry. apply index_none. eapply few_app_notin; eauto. }
  rewrite EST. eexists. split; [exact H1|]. split; [apply scope_add; auto|]. auto.
Qed.
Lemma param_step P FN st g t lower l x ts :
  at_ st (x :: ts) -> PS P FN st g (t :: lower) -> scope_ok (t :: lower) (Local l) -> few (l ++ [t_value x]) = true ->
  exists t', to P FN st (add_param st) (x :: ts) [] g (t' :: lower) /\ scope_ok (t' :: lower) (Local (l ++ [t_value x])).
Proof.
  intros HA HP HS HF. destruct (at_head _ _ _ HA) as (_ & HTk & _). unfold add_param. rewrite HTk.
  destruct (local_add _ _ _ _ _ _ _ _ HP HS HF) as (t' & A & B & C & D & E). exists t'. split; auto. split; [eapply at_same; eauto|]. split; auto.
  unfold adds. rewrite E. apply app_nil_code.
Qed.
Lemma fetch_param st k : ty st <> TOK_EOF -> fetch (add_param st) k = k (adv (add_param st)).
Proof.
  intro H. assert (E : ty (add_param st) = ty st).
  { unfold add_param. destruct (sym_lookup _ _) as [y|]; [destruct (sy_global y)|]; reflexivity. }
  unfold fetch, adv. rewrite E. destruct (next_tok (p_rest (add_param st))). destruct (ty st); try reflexivity. congruence.
Qed.
Lemma few_mid l x r : few (l ++ x :: r) = true -> few (l ++ [x]) = true.
Proof. intro H. apply few_app_inv with (b := r). rewrite <- app_assoc. exact H. Qed.
Lemma params_ok tp ps : spells_params tp ps -> forall P FN st g t lower l c rest,
  at_ st (tp ++ c :: rest) -> t_type c = TOK_PARCLOSE -> PS P FN st g (t :: lower) -> scope_ok (t :: lower) (Local l) -> few (l ++ ps) = true ->
  exists st' t', to P FN st st' (c :: rest) [] g (t' :: lower) /\ scope_ok (t' :: lower) (Local (l ++ ps)) /\ parses N_idlist st (st', (0, false)) /\
    (ps <> [] -> ty st = TOK_ID /\ parses N_idloop (adv (add_param st)) (st', (0, false))).
Proof.
  induction 1 as [|x HX|x s tr l0 HX HSep H IH HNE]; intros P FN st g t lower l c rest HA HC HP HS HF.
  - cbn [app] in HA. exists st, t. split; [apply to_refl; auto|]. split; [rewrite app_nil_r; auto|]. split; [|congruence].
    apply parses_S with (n := O). cbn [Parser.body]. rewrite (at_ty _ _ HA). cbn [cur hd]. rewrite HC. reflexivity.
  - cbn [app] in HA. destruct (param_step _ _ _ _ _ _ _ _ _ HA HP HS HF) as (t' & H1 & H2). pose proof (to_adv' _ _ _ _ _ _ _ _ _ H1) as H3.
    exists (adv (add_param st)), t'. split; [exact (to_trans H1 H3)|]. split; auto.
    assert (HL : parses N_idloop (adv (add_param st)) (adv (add_param st), (0, false))).
    { apply parses_S with (n := O). cbn [Parser.body]. rewrite (at_ty _ _ (to_at H3)). cbn [cur hd]. rewrite HC. reflexivity. }
    assert (HI : ty st = TOK_ID) by (rewrite (at_ty _ _ HA); exact HX). split; [|auto].
    destruct HL as (n & HL). apply parses_S with (n := n). cbn [Parser.body]. rewrite HI. unfold tokmatch. rewrite HI. cbn [tok_eqb].
    rewrite (to_fetch _ _ _ _ _ _ _ _ _ _ H1). exact HL.
  - cbn [app] in HA. destruct (param_step _ _ _ _ _ _ _ _ _ HA HP HS (few_mid _ _ _ HF)) as (t' & H1 & H2). pose proof (to_adv' _ _ _ _ _ _ _ _ _ H1) as H3.
    pose proof (to_adv' _ _ _ _ _ _ _ _ _ H3) as H4.
    destruct (IH P FN (adv (adv (add_param st))) g t' lower (l ++ [t_value x]) c rest) as (st' & t2 & H5 & H6 & _ & H7); auto; try exact (to_at H4); try exact (to_PS H4).
    { rewrite <- app_assoc. exact HF. }
    destruct (H7 HNE) as (HTy & HL). rewrite <- app_assoc in H6. exists st', t2. split; [exact (to_trans (to_trans (to_trans H1 H3) H4) H5)|]. split; auto.
    assert (HI : ty st = TOK_ID) by (rewrite (at_ty _ _ HA); exact HX).
    assert (HL2 : parses N_idloop (adv (add_param st)) (st', (0, false))).
    { destruct HL as (n & HL). apply parses_S with (n := n). cbn [Parser.body]. rewrite (at_ty _ _ (to_at H3)). cbn [cur hd]. rewrite HSep. cbn [tok_eqb].
      rewrite (to_fetch _ _ _ _ _ _ _ _ _ _ H3). unfold tokmatch. rewrite HTy. cbn [tok_eqb]. rewrite fetch_param by (rewrite HTy; discriminate). exact HL. }
    split; [|auto]. destruct HL2 as (n & HL2). apply parses_S with (n := n). cbn [Parser.body]. rewrite HI. unfold tokmatch. rewrite HI. cbn [tok_eqb].
    rewrite (to_fetch _ _ _ _ _ _ _ _ _ _ H1). exact HL2.
Qed.

(** ** Blocks *)
(** The names of functions are not declared as variables. *)
Definition names_s (FN : list str) (sc : Source.scope) (s : stat) : Prop :=
  match sc, s with
  | Top, S_var x | Top, S_varinit x _ => ~ In x FN
  | Top, S_fun _ x _ _ => In x FN
  | _, _ => True
  end.
Fixpoint names_ss (FN : list str) (sc : Source.scope) (l : stats) : Prop :=
  match l with Ss_nil => True | Ss_cons s r => names_s FN sc s /\ names_ss FN (after sc s) r end.
Lemma after_top sc s : sc <> Top -> after sc s <> Top.
Proof. destruct sc, s; cbn; congruence. Qed.
Lemma names_inner FN l : forall sc, sc <> Top -> names_ss FN sc l.
Proof. induction l as [|s l IH]; intros sc H; cbn [names_ss]; auto. split; [destruct sc; cbn; auto; congruence|]. apply IH, after_top, H. Qed.
Definition follow (f : nat) (rest : list token) : Prop :=
  next_lv rest = O /\ t_type (cur rest) <> TOK_ASSIGN /\ ((1 <= f)%nat -> t_type (cur rest) <> TOK_ELSE) /\ (f = 2%nat -> t_type (cur rest) = TOK_BLOCKCLOSE).
Lemma after_local l s : exists d, after (Local l) s = Local (l ++ d).
Proof. destruct s; cbn [after declare]; try (exists []; rewrite app_nil_r; reflexivity); eexists; reflexivity. Qed.
Lemma afters_local b : forall l, exists d, afters (Local l) b = Local (l ++ d).
Proof.
  induction b as [|s b IH]; intro l; cbn [afters]; [exists []; rewrite app_nil_r; reflexivity|]. destruct (after_local l s) as (d & ->).
  destruct (IH (l ++ d)) as (d2 & ->). exists (d ++ d2). rewrite app_assoc. reflexivity.
Qed.
Lemma afters_topblock b : afters TopBlock b = TopBlock.
Proof. induction b as [|s b IH]; cbn [afters]; auto. destruct s; auto. Qed.

Section Blocks.
Variable strtof : list Z -> option Z.
Notation ok_e := (ok_e strtof). Notation ok_es := (ok_es strtof). Notation ok_ss := (ok_ss strtof).
Notation claim := (claim strtof).

Definition claim_ss (ts : list token) (f : nat) (l : stats) : Prop :=
  forall P FN us sc g st rest code g',
    ok_ss sc l = true -> at_ st (ts ++ rest) -> t_type (cur rest) = TOK_EOF \/ t_type (cur rest) = TOK_BLOCKCLOSE -> (f = 2%nat -> t_type (cur rest) = TOK_BLOCKCLOSE) ->
    PS P FN st g us -> scope_ok us sc -> names_ss FN sc l -> gen_ss sc l g = (code, g') -> fits g' ->
    exists st1 j st' us', parses N_stat st (st1, j) /\ parses N_statloop st1 (st', (0, false)) /\
      to P FN st st' rest code g' us' /\ scope_ok us' (afters sc l) /\ tl us' = tl us.
Definition claim_k (ts : list token) (f : nat) (l : stats) : Prop := (ts = [] /\ l = Ss_nil) \/ (first_stat ts /\ claim_ss ts f l).

Lemma stat_first_type ts : first_stat ts -> forall r, In (t_type (cur (ts ++ r))) [TOK_ID; TOK_RETURN; TOK_VAR; TOK_IF; TOK_WHILE; TOK_FOR; TOK_FUN].
Proof. intros (t & l & -> & H) r. exact H. Qed.
Lemma sign32_id z : 0 <= z < 2 ^ 31 -> sign32 z = z.
Proof. intro H. unfold sign32, wrap32. rewrite Z.mod_small by lia. destruct (z <? 2 ^ 31) eqn:E; lia. Qed.
(** The statements of a block whose scope is there. *)
Definition block_end (numvars : Z) (st : pst) : pst :=
  let new := psize (top st) - numvars in
  let st := if new =? 0 then st else emit st (i1 "lremove" (print_d (sign32 new))) in
  set_symst st (symdel (top st) numvars :: tl (p_symst st)).
Lemma block_in tb f b P FN t lower sc g st c rest l g' :
  first_stat tb -> claim_ss tb f b -> ok_ss sc b = true -> at_ st (tb ++ c :: rest) -> t_type c = TOK_BLOCKCLOSE -> PS P FN st g (t :: lower) ->
  scope_ok (t :: lower) sc -> sc <> Top -> gen_ss sc b g = (l, g') -> fits g' ->
  exists st1 u, parses N_statlist st (st1, (0, false)) /\ at_ st1 (c :: rest) /\
    to P FN st (block_end (psize (top st)) (adv st1)) rest (l ++ endvars sc (afters sc b)) g' (u :: lower).
Proof.
  intros HF H K1 K2 HC K5 K6 HT K7 K8. destruct (H P FN (t :: lower) sc g st (c :: rest) l g') as (st1 & j1 & st2 & us' & HP1 & HP2 & H1 & H2 & H3); auto.
  { apply names_inner; auto. }
  assert (HU : exists u, us' = u :: lower).
  { cbn [tl] in H3. destruct sc as [| |vs]; [congruence| |].
    - rewrite afters_topblock in H2. destruct us' as [|u us']; [exfalso; apply H2; auto|]. cbn [tl] in H3. exists u. congruence.
    - destruct (afters_local b vs) as (d & E). rewrite E in H2. destruct H2 as (_ & u & lo & -> & _). cbn [tl] in H3. exists u. congruence. }
  destruct HU as (u & ->). clear H3. pose proof (to_adv' _ _ _ _ _ _ _ _ _ H1) as H3. exists st2.
  assert (ET : forall s gg x, PS P FN s gg (x :: lower) -> top s = x). { intros s gg x HX. destruct (ps_sym _ _ _ _ _ HX) as (base & E & _). unfold top. rewrite E. reflexivity. }
  assert (HE : to P FN (adv st2) (if psize (top (adv st2)) - psize (top st) =? 0 then adv st2
                                  else emit (adv st2) (i1 "lremove" (print_d (sign32 (psize (top (adv st2)) - psize (top st)))))) rest (endvars sc (afters sc b)) g' (u :: lower)).
  { rewrite (ET _ _ _ K5), (ET _ _ _ (to_PS H3)). destruct sc as [| |vs]; [congruence| |].
    - rewrite afters_topblock in *. rewrite (scope_size0 _ _ K6), (scope_size0 _ _ H2). cbn. apply to_refl; [exact (to_at H3)|exact (to_PS H3)].
    - destruct (afters_local b vs) as (d & E). rewrite E in *. rewrite (scope_size _ _ _ K6), (scope_size _ _ _ H2). unfold endvars. cbn [nvars].
      destruct (zlen (vs ++ d) - zlen vs =? 0) eqn:EZ; [apply to_refl; [exact (to_at H3)|exact (to_PS H3)]|].
      apply to_emit; try exact (to_at H3); try exact (to_PS H3); [|exact I]. apply spelled_int; [reflexivity|]. f_equal.
      destruct H2 as (HFew & _). apply few_nodup in HFew as [_ HFew]. rewrite zlen_app in *. pose proof (zlen_nonneg d). pose proof (zlen_nonneg vs).
      rewrite sign32_id; lia. }
  pose proof (to_PS HE) as HPE. destruct (ps_sym _ _ _ _ _ HPE) as (base & EB & _). exists (symdel (top (if psize (top (adv st2)) - psize (top st) =? 0 then adv st2
      else emit (adv st2) (i1 "lremove" (print_d (sign32 (psize (top (adv st2)) - psize (top st))))))) (psize (top st))).
  split. { destruct (parses_join _ _ _ _ _ _ HP1 HP2) as (n & E1 & E2). apply parses_S with (n := n). cbn [Parser.body]. rewrite E1. exact E2. }
  split; [exact (to_at H1)|]. eapply to_eq; [|rewrite <- app_nil_r; reflexivity]. eapply to_trans; [eapply to_eq; [exact (to_trans (to_trans H1 H3) HE)|rewrite app_nil_r; reflexivity]|].
  unfold block_end. split; [eapply at_same; [exact (to_at HE)| |]; reflexivity|]. split; [|apply app_nil_code].
  eapply PS_symst; [exact HPE|exact EB|]. rewrite EB. reflexivity.
Qed.
(** A block. *)
Lemma block_false o tb f b c P FN t lower sc g st rest l g' :
  claim_k tb f b -> t_type o = TOK_BLOCKOPEN -> t_type c = TOK_BLOCKCLOSE -> ok_ss sc b = true -> at_ st (o :: tb ++ c :: rest) -> PS P FN st g (t :: lower) ->
  scope_ok (t :: lower) sc -> sc <> Top -> gen_ss sc b g = (l, g') -> fits g' ->
  exists st' u, parses (N_block false) st (st', (0, false)) /\ to P FN st st' rest (l ++ endvars sc (afters sc b)) g' (u :: lower).
Proof.
  intros H HO HC K1 K2 K5 K6 HT K7 K8. pose proof (to_adv _ _ _ _ _ _ _ K2 K5) as H1. destruct H as [(-> & ->)|(HF & H)].
  - cbn [gen_ss] in K7. inversion K7; subst. cbn [app] in *. exists (adv (adv st)), t. pose proof (to_adv' _ _ _ _ _ _ _ _ _ H1) as H2. split.
    + apply parses_S with (n := O). cbn [Parser.body]. rewrite (tokmatch_ok _ _ _ _ K2 HO). rewrite (fetch_adv _ _ _ K2) by discriminate.
      rewrite (at_ty _ _ (to_at H1)). cbn [cur hd]. rewrite HC. cbn [tok_eqb]. rewrite (to_fetch _ _ _ _ _ _ _ _ _ _ H1). reflexivity.
    + eapply to_eq; [exact (to_trans H1 H2)|]. unfold endvars. cbn [afters]. rewrite Z.sub_diag. reflexivity.
  - destruct (block_in _ _ _ _ _ _ _ _ _ _ _ _ _ _ HF H K1 (to_at H1) HC (to_PS H1) K6 HT K7 K8) as (st1 & u & HP & HA & H2).
    exists (block_end (psize (top (adv st))) (adv st1)), u. split; [|exact (to_trans H1 H2)].
    destruct HP as (n & HP). apply parses_S with (n := n). cbn [Parser.body]. rewrite (tokmatch_ok _ _ _ _ K2 HO). rewrite (fetch_adv _ _ _ K2) by discriminate.
    rewrite (at_neq _ _ _ (to_at H1)). 2: { pose proof (stat_first_type _ HF (c :: rest)) as HI. intro E. rewrite E in HI. cbn in HI. intuition discriminate. }
    rewrite HP. cbn [pbind]. rewrite (tokmatch_ok _ _ _ _ HA HC). rewrite (fetch_adv _ _ _ HA) by discriminate. reflexivity.
Qed.
Lemma block_true o tb f b c P FN us sc g st rest l g' :
  claim_k tb f b -> t_type o = TOK_BLOCKOPEN -> t_type c = TOK_BLOCKCLOSE -> ok_ss (inner sc) b = true -> at_ st (o :: tb ++ c :: rest) -> PS P FN st g us ->
  scope_ok us sc -> gen_ss (inner sc) b g = (l, g') -> fits g' ->
  exists st', parses (N_block true) st (st', (0, false)) /\ to P FN st st' rest (l ++ endvars (inner sc) (afters (inner sc) b)) g' us.
Proof.
  intros H HO HC K1 K2 K5 K6 K7 K8. pose proof (to_adv _ _ _ _ _ _ _ K2 K5) as H1. destruct H as [(-> & ->)|(HF & H)].
  - cbn [gen_ss] in K7. inversion K7; subst. cbn [app] in *. exists (adv (adv st)). pose proof (to_adv' _ _ _ _ _ _ _ _ _ H1) as H2. split.
    + apply parses_S with (n := O). cbn [Parser.body]. rewrite (tokmatch_ok _ _ _ _ K2 HO). rewrite (fetch_adv _ _ _ K2) by discriminate.
      rewrite (at_ty _ _ (to_at H1)). cbn [cur hd]. rewrite HC. cbn [tok_eqb]. rewrite (to_fetch _ _ _ _ _ _ _ _ _ _ H1). reflexivity.
    + eapply to_eq; [exact (to_trans H1 H2)|]. unfold endvars. cbn [afters]. rewrite Z.sub_diag. reflexivity.
  - destruct (PS_inner P FN (adv st) g us sc (to_PS H1) K6) as (u0 & HP0 & HS0 & E1 & E2 & E3).
    set (st0 := if zlen (p_symst (adv st)) =? 1 then symt_push (adv st) else symt_clone (adv st)) in *.
    assert (HA0 : at_ st0 (tb ++ c :: rest)) by (eapply at_same; [exact (to_at H1)| |]; auto).
    assert (HI : inner sc <> Top) by (destruct sc; discriminate).
    destruct (block_in _ _ _ _ _ _ _ _ _ _ _ _ _ _ HF H K1 HA0 HC HP0 HS0 HI K7 K8) as (st1 & u & HP & HA & H2).
    exists (symt_pop (block_end (psize (top st0)) (adv st1))). split.
    + destruct HP as (n & HP). apply parses_S with (n := n). cbn [Parser.body]. rewrite (tokmatch_ok _ _ _ _ K2 HO). rewrite (fetch_adv _ _ _ K2) by discriminate.
      rewrite (at_neq _ _ _ (to_at H1)). 2: { pose proof (stat_first_type _ HF (c :: rest)) as HI2. intro E. rewrite E in HI2. cbn in HI2. intuition discriminate. }
      fold st0. rewrite HP. cbn [pbind]. rewrite (tokmatch_ok _ _ _ _ HA HC). rewrite (fetch_adv _ _ _ HA) by discriminate. reflexivity.
    + split; [eapply at_same; [exact (to_at H2)| |]; reflexivity|]. split; [eapply PS_pop; exact (to_PS H2)|].
      destruct H1 as (_ & _ & H1). destruct H2 as (_ & _ & H2). unfold adds in *. rewrite E3 in H2. eapply (appends_app _ _ _ [] _ H1). exact H2.
Qed.
(** The body of a function, after its name. *)
Lemma fun_body tp ps c bo tb f b bc P FN t lower vs0 g st rest l g' :
  spells_params tp ps -> claim_k tb f b -> t_type c = TOK_PARCLOSE -> t_type bo = TOK_BLOCKOPEN -> t_type bc = TOK_BLOCKCLOSE ->
  ok_ss (Local (vs0 ++ ps)) b = true -> few (vs0 ++ ps) = true -> at_ st (tp ++ c :: bo :: tb ++ bc :: rest) -> PS P FN st g (t :: lower) ->
  scope_ok (t :: lower) (Local vs0) -> gen_ss (Local (vs0 ++ ps)) b g = (l, g') -> fits g' ->
  exists st1 st2 u, parses N_idlist st (st1, (0, false)) /\ at_ st1 (c :: bo :: tb ++ bc :: rest) /\ parses (N_block false) (adv st1) (st2, (0, false)) /\
    to P FN st st2 rest (l ++ endvars (Local (vs0 ++ ps)) (afters (Local (vs0 ++ ps)) b)) g' (u :: lower).
Proof.
  intros HPs H HC HBo HBc K1 KF K2 K5 K6 K7 K8. destruct (params_ok _ _ HPs _ _ _ _ _ _ _ _ _ K2 HC K5 K6 KF) as (st1 & t1 & H1 & H2 & H3 & _).
  pose proof (to_adv' _ _ _ _ _ _ _ _ _ H1) as H4.
  destruct (block_false _ _ _ _ _ _ _ _ _ _ _ _ _ _ _ H HBo HBc K1 (to_at H4) (to_PS H4) H2 ltac:(discriminate) K7 K8) as (st2 & u & H5 & H6).
  exists st1, st2, u. split; auto. split; [exact (to_at H1)|]. split; auto. exact (to_trans (to_trans H1 H4) H6).
Qed.
Lemma self_add P FN st g us : PS P FN st g us -> Forall (fun t => tab_ok t []) us -> exists t', PS P FN (add_self (symt_push st)) g (t' :: us) /\
  scope_ok (t' :: us) (Local [bs "self"]) /\ p_tok (add_self (symt_push st)) = p_tok st /\ p_rest (add_self (symt_push st)) = p_rest st /\
  p_code (add_self (symt_push st)) = p_code st.
Proof.
  intros H HU. apply PS_push in H. unfold add_self.
  destruct (local_add P FN (symt_push st) g symtab_new us [] (bs "self") H) as (t' & A & B & C & D & E).
  - split; [reflexivity|]. do 2 eexists. split; [reflexivity|]. split; [apply tab_new_ok|]. eapply Forall_impl; [|exact HU]. intros u Hu. exists []. split; auto. intros y [].
  - reflexivity.
  - exists t'. auto.
Qed.
Lemma cl_lambda fu o tp ps c bo tb f b bc id : t_type fu = TOK_FUN -> t_type o = TOK_PAROPEN -> spells_params tp ps -> t_type c = TOK_PARCLOSE ->
  t_type bo = TOK_BLOCKOPEN -> claim_k tb f b -> t_type bc = TOK_BLOCKCLOSE -> claim 12 13 (fu :: o :: tp ++ c :: bo :: tb ++ [bc]) (E_fun id ps b).
Proof.
  intros HFu HO HPs HC HBo H HBc P FN us sc g st rest code g' K1 K2 K3 K4 K5 K6 K7 K8. cbn [Source.ok_e gen_e] in K1, K7.
  apply andb_true_iff in K1 as [K1 KO]. apply andb_true_iff in K1 as [KN KF]. replace ((fu :: o :: tp ++ c :: bo :: tb ++ [bc]) ++ rest) with (fu :: o :: tp ++ c :: bo :: tb ++ bc :: rest) in K2.
  2: { cbn [app]. do 2 f_equal. rewrite <- app_assoc. cbn [app]. do 2 f_equal. rewrite <- app_assoc. reflexivity. }
  destruct (gen_ss (Local (fun_vars sc ps)) b (mkG (g_lab g + 1) (g_strs g) [])) as [l g1] eqn:EG. inversion K7; subst code g'. clear K7.
  set (vs := fun_vars sc ps) in *.
  assert (HE : ext (mkG (g_lab g + 1) (g_strs g) []) g1) by (eapply ext_ss; eauto).
  assert (H1 : to P FN st (emit st (i1 "pushl" (labref (p_labels st)))) (fu :: o :: tp ++ c :: bo :: tb ++ bc :: rest) [insl I_PUSHL (g_lab g)] g us).
  { apply to_emit; auto; [|exact I]. rewrite (ps_lab _ _ _ _ _ K5). apply spelled_i1; reflexivity. }
  set (st0 := emit st (i1 "pushl" (labref (p_labels st)))) in *. pose proof (to_adv' _ _ _ _ _ _ _ _ _ H1) as H2. set (st1 := adv st0) in *.
  pose proof (PS_fun_start P FN st1 g us None (to_PS H2) ltac:(discriminate)) as HP2. rewrite (ps_lab _ _ _ _ _ (to_PS H2)) in HP2.
  assert (HA2 : at_ (chunk_push st1 None) (o :: tp ++ c :: bo :: tb ++ bc :: rest)) by (eapply at_same; [exact (to_at H2)| |]; reflexivity).
  pose proof (to_adv _ _ _ _ _ _ _ HA2 HP2) as H3. set (st3 := adv (chunk_push st1 None)) in *.
  set (P' := p_chunks st1 ++ [mkChunk (g_lab g) None []]) in *. set (gi := mkG (g_lab g + 1) (g_strs g) []) in *.
  set (vs0 := match sc with Local l => l | _ => [bs "self"] end). assert (EV : vs = vs0 ++ ps) by (unfold vs, vs0, fun_vars; destruct sc; reflexivity). clearbody vs. subst vs.
  set (st4 := if zlen (p_symst st3) =? 1 then add_self (symt_push st3) else symt_clone st3).
  assert (H4 : exists t, PS P' FN st4 gi (t :: us) /\ scope_ok (t :: us) (Local vs0) /\ p_tok st4 = p_tok st3 /\ p_rest st4 = p_rest st3 /\ p_code st4 = p_code st3).
  { unfold st4, vs0. destruct sc as [| |vl]; [|discriminate|].
    - cbn [scope_ok] in K6. subst us. destruct (ps_sym _ _ _ _ _ (to_PS H3)) as (base & EB & _). rewrite EB. cbn [app]. change (zlen [base] =? 1) with true. cbv iota.
      apply self_add; [exact (to_PS H3)|constructor].
    - destruct (PS_inner P' FN st3 gi us (Local vl) (to_PS H3) K6) as (u & A & B & C). 
      destruct (ps_sym _ _ _ _ _ (to_PS H3)) as (base & EB & _). destruct K6 as (_ & t & lower & -> & _).
      assert (EZ : (zlen (p_symst st3) =? 1) = false).
      { rewrite EB. cbn [app]. rewrite zlen_cons, zlen_app. change (zlen [base]) with 1. pose proof (zlen_nonneg lower). lia. }
      rewrite EZ in *. exists u. auto. }
  destruct H4 as (t & HP4 & HS4 & ET & ER & EC).
  assert (HA4 : at_ st4 (tp ++ c :: bo :: tb ++ bc :: rest)) by (eapply at_same; [exact (to_at H3)| |]; auto).
  destruct (fun_body _ _ _ _ _ _ _ _ _ _ _ _ _ _ _ _ _ _ HPs H HC HBo HBc KO KF HA4 HP4 HS4 EG K8) as (st5 & st6 & u & HI & HA5 & HB & H6).
  assert (H7 : to P' FN st6 (emit st6 (i0 "ret0")) rest [ins I_RET0] g1 (u :: us)).
  { apply to_emit; try exact (to_at H6); try exact (to_PS H6); [|exact I]. apply spelled_i0. reflexivity. }
  pose proof (to_trans H6 H7) as (HA7 & HP7 & HC7). unfold adds in HC7. rewrite EC in HC7. unfold st3 in HC7. rewrite adv_code in HC7. cbn [chunk_push p_code set_labels set_code] in HC7.
  rewrite <- app_assoc in HC7.
  exists (chunk_pop (symt_pop (emit st6 (i0 "ret0"))) (length (p_chunks st1)) (p_code st1)), (0, false). split.
  - destruct (parses_join _ _ _ _ _ _ HI HB) as (n & E1 & E2). apply parses_S with (n := S n). cbn [nt_of Parser.body]. rewrite (at_ty _ _ K2). cbn [cur hd]. rewrite HFu. fold st0.
    cbn [parse]. cbn [Parser.body]. rewrite (to_match _ _ _ _ _ _ _ _ _ _ _ H1 HFu). rewrite (to_fetch _ _ _ _ _ _ _ _ _ _ H1). fold st1. cbv zeta.
    rewrite (tokmatch_ok _ _ _ _ HA2 HO). rewrite (fetch_adv _ _ _ HA2) by discriminate. fold st3. fold st4. rewrite E1. cbn [pbind].
    rewrite (tokmatch_ok _ _ _ _ HA5 HC). rewrite (fetch_adv _ _ _ HA5) by discriminate. rewrite E2. cbn [pbind]. reflexivity.
  - split; [eapply at_same; [exact HA7| |]; reflexivity|]. split.
    + eapply PS_fun_end; [exact (to_PS H2)|reflexivity|exact HP7|exact HE|exact HC7|reflexivity].
    + unfold adds, chunk_pop. cbn [p_code set_code]. eapply (appends_app _ _ _ [_] []); [apply H1|apply H2].
Qed.
End Blocks.
