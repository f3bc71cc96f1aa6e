(** The parser emits the code of Gen.v: variables, accesses and calls. *)
From Coq Require Import String.
From Verif Require Import Base ListLemmas Dict DictSpec DictProofs PDict PDictKeys Strman StrmanProofs Text TextProofs Lex Instr Asm AsmSpec
  Parser ParserFuel Source Gen GenExt PgBase PgSym PgExpr PgOps.
Local Open Scope Z_scope. Local Open Scope list_scope.

Ltac Zify.zify_post_hook ::= idtac.

Definition nils (m : nat) : list aline := repeat (ins I_PUSHNIL) m.
Definition opens (rest : list token) : bool := tok_eqb (t_type (cur rest)) TOK_PAROPEN.
(** What is left to emit for a reference, and how the parser remembers it. *)
Definition root_ok (sc : Source.scope) (e : expr) (c : bool) (g' : gst) (info pos : Z) (global : bool) (tail : list aline) : Prop :=
  match e with
  | E_var x =>
      match slot sc x with
      | Some i => info = i /\ pos = i /\ global = false /\ 0 <= i /\ tail = when c [ins I_PUSHNIL] ++ [insn I_LLOAD i]
      | None => global = true /\ index x (g_strs g') = Some info /\ tail = when c [ins I_PUSHNIL] ++ [insn I_PUSHS info; ins I_GLOAD]
      end
  | E_get _ _ => info = TYPE_TABLE /\ global = false /\ tail = [ins I_TGET]
  | E_call _ _ => info = TYPE_CLOSURE /\ global = false /\ tail = [ins I_CALLC]
  | _ => False
  end.
Definition load_st (st : pst) (pos info : Z) (global : bool) : pst :=
  load_var (if (global || (0 <=? info)) && tok_eqb (ty st) TOK_PAROPEN then emit st (i0 "pushnil") else st) pos info global.
Lemma slot_range sc x i : slot sc x = Some i -> 0 <= i.
Proof. destruct sc; try discriminate. cbn. intro H. apply index_range in H. lia. Qed.
Lemma to_when P FN st rest g us (b : bool) name o : at_ st rest -> PS P FN st g us -> bs name = opname o ->
  to P FN st (if b then emit st (i0 name) else st) rest (when b [ins o]) g us.
Proof.
  intros HA HP HO. destruct b; cbn [when]; [|apply to_refl; auto]. apply to_emit; auto; [|exact I]. apply spelled_i0; auto.
Qed.
Lemma load_step P FN us sc e g' info pos global tail st rest :
  at_ st rest -> PS P FN st g' us -> root_ok sc e (opens rest) g' info pos global tail -> to P FN st (load_st st pos info global) rest tail g' us.
Proof.
  intros HA HP HR. unfold load_st. replace (tok_eqb (ty st) TOK_PAROPEN) with (opens rest) by (unfold opens; rewrite (at_ty _ _ HA); reflexivity).
  destruct e; try contradiction; cbn [root_ok] in HR.
  - pose proof (to_when P FN st rest g' us (opens rest) "pushnil" I_PUSHNIL HA HP eq_refl) as HW. destruct (slot sc x) as [j|].
    + destruct HR as (-> & -> & -> & HJ & ->). replace (0 <=? j) with true by lia. cbn [orb andb]. eapply to_trans; [exact HW|].
      unfold load_var. replace (0 <=? j) with true by lia. apply to_emit; eauto with pg; try exact I. apply spelled_int; auto.
    + destruct HR as (-> & HI & ->). cbn [orb andb]. change ([insn I_PUSHS info; ins I_GLOAD]) with ([insn I_PUSHS info] ++ [ins I_GLOAD]).
      eapply to_trans; [exact HW|]. unfold load_var.
      assert (H1 : forall s, at_ s rest -> PS P FN s g' us -> to P FN s (emit s (i1 "pushs" (print_d info))) rest [insn I_PUSHS info] g' us).
      { intros s A B. apply to_emit; auto; [|exact I]. apply spelled_int; auto. }
      specialize (H1 _ (to_at _ _ _ _ _ _ _ _ HW) (to_PS _ _ _ _ _ _ _ _ HW)). eapply to_trans; [exact H1|].
      apply to_emit; eauto with pg; [|exact I]. apply spelled_i0; reflexivity.
  - destruct HR as (-> & -> & ->). cbn [orb andb]. replace (0 <=? TYPE_TABLE) with false by reflexivity. cbn [andb]. unfold load_var.
    replace (0 <=? TYPE_TABLE) with false by reflexivity. replace (TYPE_TABLE =? TYPE_TABLE) with true by reflexivity.
    apply to_emit; auto; [apply spelled_i0; reflexivity|exact I].
  - destruct HR as (-> & -> & ->). cbn [orb andb]. replace (0 <=? TYPE_CLOSURE) with false by reflexivity. cbn [andb]. unfold load_var.
    replace (0 <=? TYPE_CLOSURE) with false by reflexivity. replace (TYPE_CLOSURE =? TYPE_TABLE) with false by reflexivity.
    replace (TYPE_CLOSURE =? TYPE_CLOSURE) with true by reflexivity. apply to_emit; auto; [apply spelled_i0; reflexivity|exact I].
Qed.
Lemma appends_glue a b c x y : appends a b x -> appends [] c y -> appends a (b ++ c) (x ++ y).
Proof.
  intros (l1 & -> & <- & F1) (l2 & E2 & <- & F2). cbn [app] in E2. subst c. exists (l1 ++ l2). rewrite text_app, map_app, app_assoc. split; auto. split; auto.
  apply Forall_app; auto.
Qed.
Lemma to_code P FN st st' ts c g us : to P FN st st' ts c g us -> forall a x, appends a (p_code st) x -> appends a (p_code st') (x ++ c).
Proof. intros (_ & _ & H) a x Hx. eapply appends_app; eauto. Qed.

Section Ref.
Variable strtof : list Z -> option Z.
Notation ok_e := (ok_e strtof). Notation ok_es := (ok_es strtof).
Notation claim := (claim strtof). Notation claim_e := (claim_e strtof). Notation claim_a := (claim_a strtof).

Definition claim_r (ts : list token) (e : expr) : Prop :=
  forall lv P FN us sc g st rest code g',
    ok_e sc e = true -> at_ st (ts ++ rest) -> PS P FN st g us -> scope_ok us sc -> gen_e sc e (opens rest) g = (code, g') -> fits g' ->
    exists st' pre pos info global m body tail,
      code = nils m ++ body ++ tail /\ at_ st' rest /\ PS P FN st' g' us /\ appends (p_code st) pre (nils m) /\ appends [] (p_code st') body /\
      root_ok sc e (opens rest) g' info pos global tail /\
      forall r, parses (N_idrefloop lv pre pos info global) st' r -> parses (N_idref lv) st r.
Lemma cr_var t : t_type t = TOK_ID -> claim_r [t] (E_var (t_value t)).
Proof.
  intros HT lv P FN us sc g st rest code g' K1 K2 K5 K6 K7 K8. cbn [app gen_e] in *. unfold gen_load in K7. set (x := t_value t) in *.
  destruct (at_head _ _ _ K2) as (HTy & HTk & (_ & _ & _ & HCh) & HF). fold x in HCh.
  pose proof (lookup_scope x us sc K6) as HLS. destruct (ps_sym _ _ _ _ _ K5) as (base & ES & HB).
  assert (HLk : sym_lookup x (p_symst st) = match slot sc x with Some i => Some (mkSym i false) | None => symt_get base x end).
  { rewrite ES, lookup_app, HLS. destruct (slot sc x); cbn [option_map sym_lookup]; auto. destruct (symt_get base x); auto. }
  assert (HX : exists st1 s, 
      sym_lookup x (p_symst st1) = Some s /\ st1 = match sym_lookup x (p_symst st) with None => sym_add st x SCOPE_GLOBAL | Some _ => st end /\
      at_ st1 (t :: rest) /\ PS P FN st1 g' us /\ p_code st1 = p_code st /\
      exists tail, code = tail /\ root_ok sc (E_var x) (opens rest) g' (sy_pos s) (sy_pos s) (sy_global s) tail).
  { rewrite HLk. destruct (slot sc x) as [i|] eqn:ESl.
    - inversion K7; subst. exists st, (mkSym i false). split; [exact HLk|]. split; auto. split; auto. split; auto. split; auto. eexists. split; [reflexivity|].
      cbn [root_ok sy_pos sy_global]. rewrite ESl. repeat split; auto. eapply slot_range; eauto.
    - destruct (addstr g x) as [p g1] eqn:EA. inversion K7; subst g1 code. destruct (addstr_spec _ _ _ _ EA) as (HI & _). destruct (symt_get base x) as [s|] eqn:EB.
      + destruct HB as (_ & HB). destruct (HB _ _ EB) as [HG HP']. unfold addstr in EA. rewrite HP' in EA. inversion EA; subst.
        exists st, s. split; [exact HLk|]. split; auto. split; auto. split; auto. split; auto. eexists. split; [reflexivity|].
        cbn [root_ok]. rewrite ESl, HG. auto.
      + destruct (PS_global P FN st g us x p g' SCOPE_GLOBAL K5 HCh EA K8) as (st1 & E1 & H1 & HR & HT1 & HT2 & HCd & HLk1); auto.
        rewrite HLS in HLk1. specialize (HLk1 eq_refl). rewrite E1. exists st1, (mkSym p true). split; [exact HLk1|]. split; auto.
        split; [eapply at_same; eauto|]. split; auto. split; auto. eexists. split; [reflexivity|]. cbn [root_ok sy_pos sy_global]. rewrite ESl. auto. }
  destruct HX as (st1 & s & EL & E1 & HA1 & HP1 & HCd & tail & -> & HR).
  pose proof (to_adv _ _ _ _ _ _ _ HA1 HP1) as HA. pose proof (to_at _ _ _ _ _ _ _ _ HA) as HAa.
  exists (set_code (adv st1) []), (p_code (adv st1)), (sy_pos s), (sy_pos s), (sy_global s), O, [], tail. split; [reflexivity|].
  split; [eapply at_same; eauto|]. split; [apply PS_code; eauto with pg|]. split; [rewrite adv_code, HCd; apply app_nil_code|].
  split; [apply app_nil_code|]. split; auto. intros r (n & E). apply parses_S with (n := n). cbn [Parser.body]. rewrite (tokmatch_ok _ _ _ _ K2) by exact HT.
  rewrite HTk. fold x. rewrite <- E1, EL. rewrite (fetch_adv _ _ _ HA1) by discriminate. exact E.
Qed.
(** One step of the loop: loading what was parsed. *)
Lemma loop_dot lv pre pos info global st ts : at_ st ts -> t_type (cur ts) = TOK_DOT -> forall rec,
  Parser.body rec (N_idrefloop lv pre pos info global) st =
  fetch (load_st st pos info global) (fun st => tokmatch TOK_ID st (
          let '(d, p) := string_add (p_strs st) (t_value (p_tok st)) in
          fetch (set_strs st d) (fun st =>
          let st := if tok_eqb (ty st) TOK_PAROPEN then emit st (i0 "dup") else st in
          rec (N_idrefloop lv pre pos TYPE_TABLE false) (emit st (i1 "pushs" (print_u p)))))).
Proof. intros HA HT rec. cbn [Parser.body]. rewrite (at_ty _ _ HA), HT. unfold load_st. rewrite (at_ty _ _ HA), HT. reflexivity. Qed.
Lemma loop_idx lv pre pos info global st ts : at_ st ts -> t_type (cur ts) = TOK_IDXOPEN -> forall rec,
  Parser.body rec (N_idrefloop lv pre pos info global) st =
  fetch (load_st st pos info global) (fun st =>
          let pre2 := p_code st in
          st <~ rec N_expression (set_code st []) ;;
          tokmatch TOK_IDXCLOSE st (fetch st (fun st =>
          let pre2 := if tok_eqb (ty st) TOK_PAROPEN then pre2 ++ code_line (p_tok st) (i0 "dup") else pre2 in
          rec (N_idrefloop lv pre pos TYPE_TABLE false) (set_code st (pre2 ++ p_code st))))).
Proof. intros HA HT rec. cbn [Parser.body]. rewrite (at_ty _ _ HA), HT. unfold load_st. rewrite (at_ty _ _ HA), HT. reflexivity. Qed.
Lemma loop_call lv pre pos info global st ts : at_ st ts -> t_type (cur ts) = TOK_PAROPEN -> forall rec,
  Parser.body rec (N_idrefloop lv pre pos info global) st =
  fetch (load_st st pos info global) (fun st =>
          '[st; i] <~ rec N_condlist st ;;
          tokmatch TOK_PARCLOSE st (fetch st (fun st =>
          let pre := if tok_eqb (ty st) TOK_PAROPEN then pre ++ code_line (p_tok st) (i0 "pushnil") else pre in
          rec (N_idrefloop lv pre pos TYPE_CLOSURE false) (emit st (i1 "pushi" (print_d (fst i))))))).
Proof. intros HA HT rec. cbn [Parser.body]. rewrite (at_ty _ _ HA), HT. unfold load_st. rewrite (at_ty _ _ HA), HT. reflexivity. Qed.
Lemma opens_ty st rest : at_ st rest -> tok_eqb (ty st) TOK_PAROPEN = opens rest.
Proof. intro H. unfold opens. rewrite (at_ty _ _ H). reflexivity. Qed.

Lemma cr_dot ts e d i : claim_r ts e -> t_type d = TOK_DOT -> t_type i = TOK_ID -> claim_r (ts ++ [d; i]) (E_get e (E_str (t_value i))).
Proof.
  intros H HT HT2 lv P FN us sc g st rest code g' K1 K2 K5 K6 K7 K8. cbn [gen_e Source.ok_e] in *. rewrite andb_true_r in K1. rewrite at_shift in K2. cbn [app] in K2.
  gens. inversion K7; subst. clear K7.
  assert (HO : opens (d :: i :: rest) = false) by (unfold opens; cbn [cur hd]; rewrite HT; reflexivity).
  destruct (H lv P FN us sc g st (d :: i :: rest) l g0) as (st1 & pre & pos & info & global & m & body & tail & -> & HA1 & HP1 & HPre & HBody & HR & HK); auto.
  { rewrite HO. auto. } { pose proof (ext_addstr g0 (t_value i)) as HE. rewrite Heqp0 in HE. eapply fits_ext; eauto. }
  pose proof (load_step _ _ _ _ _ _ _ _ _ _ _ _ HA1 HP1 HR) as HL.
  pose proof (to_adv _ _ _ _ _ _ _ (to_at _ _ _ _ _ _ _ _ HL) (to_PS _ _ _ _ _ _ _ _ HL)) as HA.
  destruct (at_head _ _ _ (to_at _ _ _ _ _ _ _ _ HA)) as (HTy & HTk & (_ & _ & _ & HCh) & HF).
  destruct (to_str _ _ _ _ _ _ _ _ _ (to_at _ _ _ _ _ _ _ _ HA) (to_PS _ _ _ _ _ _ _ _ HA) HCh Heqp0 K8) as (dd & E1 & HS & HRg).
  pose proof (to_adv _ _ _ _ _ _ _ (to_at _ _ _ _ _ _ _ _ HS) (to_PS _ _ _ _ _ _ _ _ HS)) as HB.
  set (st3 := adv (set_strs (adv (load_st st1 pos info global)) dd)) in *.
  assert (HD : to P FN st3 (if opens rest then emit st3 (i0 "dup") else st3) rest (when (opens rest) [ins I_DUP]) g' us).
  { destruct (opens rest); cbn [when]; [apply to_emit; eauto with pg; [apply spelled_i0; reflexivity|exact I]|apply to_refl; eauto with pg]. }
  set (st4 := if opens rest then emit st3 (i0 "dup") else st3) in *.
  assert (HE : to P FN st4 (emit st4 (i1 "pushs" (print_u z))) rest [insn I_PUSHS z] g' us).
  { apply to_emit; eauto with pg; [apply spelled_int; [reflexivity|apply print_d_u; lia]|exact I]. }
  exists (emit st4 (i1 "pushs" (print_u z))), pre, pos, TYPE_TABLE, false, m, (body ++ tail ++ when (opens rest) [ins I_DUP] ++ [insn I_PUSHS z]), [ins I_TGET].
  split; [rewrite <- !app_assoc; reflexivity|]. split; [eauto with pg|]. split; [eauto with pg|]. split; auto. split.
  - apply (to_code _ _ _ _ _ _ _ _ HL) in HBody. apply (to_code _ _ _ _ _ _ _ _ HA) in HBody. apply (to_code _ _ _ _ _ _ _ _ HS) in HBody.
    apply (to_code _ _ _ _ _ _ _ _ HB) in HBody. apply (to_code _ _ _ _ _ _ _ _ HD) in HBody. apply (to_code _ _ _ _ _ _ _ _ HE) in HBody.
    rewrite !app_nil_r, <- !app_assoc in HBody. exact HBody.
  - split; [cbn; auto|]. intros r (n & E). apply HK. apply parses_S with (n := n). rewrite (loop_dot _ _ _ _ _ _ _ HA1 HT).
    rewrite (fetch_adv _ _ _ (to_at _ _ _ _ _ _ _ _ HL)) by discriminate. rewrite (tokmatch_ok _ _ _ _ (to_at _ _ _ _ _ _ _ _ HA)) by exact HT2. rewrite HTk, E1.
    rewrite (fetch_adv _ _ _ (to_at _ _ _ _ _ _ _ _ HS)) by discriminate. fold st3. rewrite (opens_ty _ _ (to_at _ _ _ _ _ _ _ _ HB)). exact E.
Qed.
Lemma cr_idx ts e o lim tk k c : claim_r ts e -> t_type o = TOK_IDXOPEN -> (8 <= lim)%nat -> claim 4 lim tk k -> t_type c = TOK_IDXCLOSE ->
  claim_r (ts ++ o :: tk ++ [c]) (E_get e k).
Proof.
  intros H HT HLim H2 HT2 lv P FN us sc g st rest code g' K1 K2 K5 K6 K7 K8. cbn [gen_e Source.ok_e] in *. apply andb_true_iff in K1 as [K1 K1'].
  rewrite at_shift, <- app_assoc in K2. cbn [app] in K2. gens. inversion K7; subst. clear K7.
  assert (HO : opens (o :: tk ++ c :: rest) = false) by (unfold opens; cbn [cur hd]; rewrite HT; reflexivity).
  destruct (H lv P FN us sc g st (o :: tk ++ c :: rest) l g0) as (st1 & pre & pos & info & global & m & body & tail & -> & HA1 & HP1 & HPre & HBody & HR & HK); auto.
  { rewrite HO. auto. } { eapply fits_ext; eauto using ext_e. }
  pose proof (load_step _ _ _ _ _ _ _ _ _ _ _ _ HA1 HP1 HR) as HL.
  pose proof (to_adv _ _ _ _ _ _ _ (to_at _ _ _ _ _ _ _ _ HL) (to_PS _ _ _ _ _ _ _ _ HL)) as HA.
  set (st2 := adv (load_st st1 pos info global)) in *.
  destruct (H2 P FN us sc g0 (set_code st2 []) (c :: rest) l0 g') as (st3 & i & HPk & H3); auto.
  { eapply at_same; [eapply to_at; eauto| |]; reflexivity. } { unfold next_lv. cbn [cur hd]. rewrite HT2. cbn; lia. } { unfold next_lv. cbn [cur hd]. rewrite HT2. cbn; lia. }
  { apply PS_code. eauto with pg. }
  pose proof (to_adv _ _ _ _ _ _ _ (to_at _ _ _ _ _ _ _ _ H3) (to_PS _ _ _ _ _ _ _ _ H3)) as HB.
  set (pre2 := if opens rest then p_code st2 ++ code_line (p_tok (adv st3)) (i0 "dup") else p_code st2).
  assert (HP2 : appends [] pre2 ((body ++ tail) ++ when (opens rest) [ins I_DUP])).
  { apply (to_code _ _ _ _ _ _ _ _ HL) in HBody. apply (to_code _ _ _ _ _ _ _ _ HA) in HBody. rewrite app_nil_r in HBody. unfold pre2. destruct (opens rest); cbn [when].
    - eapply appends_app; [apply HBody|]. eapply appends_line; [eapply to_at; apply HB|apply spelled_i0; reflexivity|exact I].
    - rewrite app_nil_r. exact HBody. }
  exists (set_code (adv st3) (pre2 ++ p_code (adv st3))), pre, pos, TYPE_TABLE, false, m, (((body ++ tail) ++ when (opens rest) [ins I_DUP]) ++ l0), [ins I_TGET].
  split; [rewrite <- !app_assoc; reflexivity|]. split; [eapply at_same; [eapply to_at; apply HB| |]; reflexivity|]. split; [apply PS_code; eauto with pg|]. split; auto. split.
  - cbn [p_code set_code]. apply appends_glue; auto. rewrite adv_code. apply H3.
  - split; [cbn; auto|]. intros r Hr. apply HK. destruct (parses_join _ _ _ _ _ _ HPk Hr) as (n & E1 & E2). apply parses_S with (n := n). rewrite (loop_idx _ _ _ _ _ _ _ HA1 HT).
    rewrite (fetch_adv _ _ _ (to_at _ _ _ _ _ _ _ _ HL)) by discriminate. fold st2. cbv zeta. cbn [nt_of] in E1. rewrite E1. cbn [pbind].
    rewrite (tokmatch_ok _ _ _ _ (to_at _ _ _ _ _ _ _ _ H3)) by exact HT2. rewrite (fetch_adv _ _ _ (to_at _ _ _ _ _ _ _ _ H3)) by discriminate.
    rewrite (opens_ty _ _ (to_at _ _ _ _ _ _ _ _ HB)). exact E2.
Qed.
(** The arguments between the parentheses. *)
Definition claim_cl (ta : list token) (args : exprs) : Prop :=
  forall P FN us sc g st rest code g',
    ok_es sc args = true -> at_ st (ta ++ rest) -> t_type (cur rest) = TOK_PARCLOSE -> PS P FN st g us -> scope_ok us sc ->
    gen_es sc args g = (code, g') -> fits g' ->
    exists st', parses N_condlist st (st', (count args, false)) /\ to P FN st st' rest code g' us.
Lemma cl_none : claim_cl [] Es_nil.
Proof.
  intros P FN us sc g st rest code g' K1 K2 K3 K5 K6 K7 K8. cbn [app gen_es] in *. inversion K7; subst. exists st. split; [|apply to_refl; auto].
  apply parses_S with (n := O). cbn [Parser.body]. rewrite (at_ty _ _ K2), K3. reflexivity.
Qed.
Lemma cl_some ta args : first_ok 1 ta -> claim_a ta args -> claim_cl ta args.
Proof.
  intros (t & tr & -> & HS) H P FN us sc g st rest code g' K1 K2 K3 K5 K6 K7 K8.
  destruct (H 0 P FN us sc g st rest code g') as (st1 & i1 & st' & HP1 & HP2 & HT); auto. exists st'. split; auto.
  destruct (parses_join _ _ _ _ _ _ HP1 HP2) as (n & E1 & E2). apply parses_S with (n := n). cbn [Parser.body].
  rewrite (at_neq _ _ _ K2). 2: { cbn [app cur hd]. intro E. destruct HS as (_ & _ & _ & HS). rewrite E in HS. cbn in HS. intuition discriminate. }
  rewrite E1. cbn [pbind]. exact E2.
Qed.
Lemma cr_call ts e o ta args c : claim_r ts e -> t_type o = TOK_PAROPEN -> claim_cl ta args -> t_type c = TOK_PARCLOSE -> claim_r (ts ++ o :: ta ++ [c]) (E_call e args).
Proof.
  intros H HT H2 HT2 lv P FN us sc g st rest code g' K1 K2 K5 K6 K7 K8. cbn [gen_e Source.ok_e] in *. apply andb_true_iff in K1 as [K1 _]. apply andb_true_iff in K1 as [K1 K1'].
  rewrite at_shift, <- app_assoc in K2. cbn [app] in K2. gens. inversion K7; subst. clear K7.
  assert (HO : opens (o :: ta ++ c :: rest) = true) by (unfold opens; cbn [cur hd]; rewrite HT; reflexivity).
  destruct (H lv P FN us sc g st (o :: ta ++ c :: rest) l g0) as (st1 & pre & pos & info & global & m & body & tail & -> & HA1 & HP1 & HPre & HBody & HR & HK); auto.
  { rewrite HO. auto. } { eapply fits_ext; eauto using ext_es. }
  pose proof (load_step _ _ _ _ _ _ _ _ _ _ _ _ HA1 HP1 HR) as HL.
  pose proof (to_adv _ _ _ _ _ _ _ (to_at _ _ _ _ _ _ _ _ HL) (to_PS _ _ _ _ _ _ _ _ HL)) as HA.
  destruct (H2 P FN us sc g0 (adv (load_st st1 pos info global)) (c :: rest) l0 g') as (st3 & HPk & H3); eauto with pg.
  pose proof (to_adv _ _ _ _ _ _ _ (to_at _ _ _ _ _ _ _ _ H3) (to_PS _ _ _ _ _ _ _ _ H3)) as HB.
  set (pre2 := if opens rest then pre ++ code_line (p_tok (adv st3)) (i0 "pushnil") else pre).
  set (m2 := if opens rest then S m else m).
  assert (HP2 : appends (p_code st) pre2 (nils m2)).
  { unfold pre2, m2. destruct (opens rest); auto. unfold nils. cbn [repeat]. rewrite repeat_cons. eapply appends_app; [apply HPre|].
    eapply appends_line; [eapply to_at; apply HB|apply spelled_i0; reflexivity|exact I]. }
  assert (HE : to P FN (adv st3) (emit (adv st3) (i1 "pushi" (print_d (count args)))) rest [insn I_PUSHI (count args)] g' us).
  { apply to_emit; eauto with pg; [apply spelled_int; reflexivity|exact I]. }
  exists (emit (adv st3) (i1 "pushi" (print_d (count args)))), pre2, pos, TYPE_CLOSURE, false, m2, (body ++ tail ++ l0 ++ [insn I_PUSHI (count args)]), [ins I_CALLC].
  split. { unfold m2. destruct (opens rest); cbn [when nils repeat app]; rewrite <- !app_assoc; reflexivity. }
  split; [eauto with pg|]. split; [eauto with pg|]. split; auto. split.
  - apply (to_code _ _ _ _ _ _ _ _ HL) in HBody. apply (to_code _ _ _ _ _ _ _ _ HA) in HBody. apply (to_code _ _ _ _ _ _ _ _ H3) in HBody.
    apply (to_code _ _ _ _ _ _ _ _ HB) in HBody. apply (to_code _ _ _ _ _ _ _ _ HE) in HBody. rewrite !app_nil_r, <- !app_assoc in HBody. exact HBody.
  - split; [cbn; auto|]. intros r Hr. apply HK. destruct (parses_join _ _ _ _ _ _ HPk Hr) as (n & E1 & E2). apply parses_S with (n := n). rewrite (loop_call _ _ _ _ _ _ _ HA1 HT).
    rewrite (fetch_adv _ _ _ (to_at _ _ _ _ _ _ _ _ HL)) by discriminate. rewrite E1. cbn [pbind].
    rewrite (tokmatch_ok _ _ _ _ (to_at _ _ _ _ _ _ _ _ H3)) by exact HT2. rewrite (fetch_adv _ _ _ (to_at _ _ _ _ _ _ _ _ H3)) by discriminate.
    rewrite (opens_ty _ _ (to_at _ _ _ _ _ _ _ _ HB)). exact E2.
Qed.
(** The end of a reference. *)
Lemma load_var_end st info pos global rest sc e g' tail :
  at_ st rest -> opens rest = false -> root_ok sc e false g' info pos global tail -> load_var st info info global = load_st st pos info global.
Proof.
  intros HA HO HR. unfold load_st. rewrite (opens_ty _ _ HA), HO, andb_false_r. destruct e; try contradiction; cbn [root_ok] in HR.
  - destruct (slot sc x); [destruct HR as (-> & -> & _); reflexivity|]. destruct HR as (-> & _). reflexivity.
  - destruct HR as (-> & -> & _). reflexivity.
  - destruct HR as (-> & -> & _). reflexivity.
Qed.
Lemma low_not_open rest : (next_lv rest < 12)%nat -> opens rest = false.
Proof. intro H. unfold opens. apply tok_eqb_neq. intro E. unfold next_lv in H. rewrite E in H. cbn in H. lia. Qed.
Lemma loop_end lv pre pos info global st rest : at_ st rest -> (next_lv rest < 12)%nat -> forall rec,
  Parser.body rec (N_idrefloop lv pre pos info global) st =
  let st := if negb lv || (info =? TYPE_CLOSURE) then load_var st info info global else st in Ok (Some (set_code st (pre ++ p_code st), (info, global))).
Proof.
  intros HA HL rec. cbn [Parser.body]. rewrite (at_ty _ _ HA). unfold next_lv in HL. destruct (t_type (cur rest)); try reflexivity; cbn in HL; lia.
Qed.
Lemma cl_ref ts e : claim_r ts e -> (exists t r, ts = t :: r /\ t_type t = TOK_ID) -> claim 12 13 ts e.
Proof.
  intros H (t & tr & -> & HT) P FN us sc g st rest code g' K1 K2 K3 K4 K5 K6 K7 K8. pose proof (low_not_open _ K3) as HO.
  destruct (H false P FN us sc g st rest code g') as (st1 & pre & pos & info & global & m & body & tail & -> & HA1 & HP1 & HPre & HBody & HR & HK); auto.
  { rewrite HO. auto. }
  pose proof (load_step _ _ _ _ _ _ _ _ _ _ _ _ HA1 HP1 HR) as HL. rewrite HO in HR.
  exists (set_code (load_st st1 pos info global) (pre ++ p_code (load_st st1 pos info global))), (info, global). split.
  - assert (HX : parses (N_idref false) st (set_code (load_st st1 pos info global) (pre ++ p_code (load_st st1 pos info global)), (info, global))).
    { apply HK. apply parses_S with (n := O). rewrite (loop_end _ _ _ _ _ _ _ HA1 K3). cbn [negb orb]. rewrite (load_var_end _ _ _ _ _ _ _ _ _ HA1 HO HR). reflexivity. }
    destruct HX as (n & E). apply parses_S with (n := n). cbn [nt_of Parser.body]. rewrite (at_ty _ _ K2). cbn [app cur hd]. rewrite HT. exact E.
  - split; [eapply at_same; [eapply to_at; apply HL| |]; reflexivity|]. split; [apply PS_code; eauto with pg|]. unfold adds. cbn [p_code set_code].
    eapply appends_glue; [apply HPre|]. apply (to_code _ _ _ _ _ _ _ _ HL). exact HBody.
Qed.
End Ref.
