(** The parser emits the code of Gen.v: statements, and the whole grammar. *)
From Coq Require Import String.
From Verif Require Import Base ListLemmas Dict DictSpec DictProofs PDict PDictKeys Strman StrmanProofs Text TextProofs Lex Instr Asm AsmSpec
  Parser ParserFuel Source Gen GenExt PgBase PgSym PgExpr PgOps PgRef PgFun.
Local Open Scope Z_scope. Local Open Scope list_scope.

Ltac Zify.zify_post_hook ::= idtac.

Lemma to_lab P FN st st' ts c g us n : to P FN st st' ts c g us -> to P FN st' (emit st' (labref n)) ts [lab n] g us.
Proof. intro H. apply to_emit; try exact (to_at H); try exact (to_PS H); [apply spelled_lab|exact I]. Qed.
Lemma to_jump P FN st st' ts c g us o name n : to P FN st st' ts c g us -> bs name = opname o ->
  to P FN st' (emit st' (i1 name (labref n))) ts [insl o n] g us.
Proof. intros H HN. apply to_emit; try exact (to_at H); try exact (to_PS H); [apply spelled_i1; auto|exact I]. Qed.
Lemma to_op P FN st st' ts c g us o name : to P FN st st' ts c g us -> bs name = opname o -> to P FN st' (emit st' (i0 name)) ts [ins o] g us.
Proof. intros H HN. apply to_emit; try exact (to_at H); try exact (to_PS H); [apply spelled_i0; auto|exact I]. Qed.
Lemma to_opn P FN st st' ts c g us o name z : to P FN st st' ts c g us -> bs name = opname o ->
  to P FN st' (emit st' (i1 name (print_d z))) ts [insn o z] g us.
Proof. intros H HN. apply to_emit; try exact (to_at H); try exact (to_PS H); [apply spelled_int; auto|exact I]. Qed.
Lemma next0 T : oplevel T = O -> forall t r, t_type t = T -> next_lv (t :: r) = O.
Proof. intros H t r E. unfold next_lv. cbn [cur hd]. rewrite E. exact H. Qed.

Section Stats.
Variable strtof : list Z -> option Z.
Notation ok_e := (ok_e strtof). Notation ok_es := (ok_es strtof). Notation ok_ss := (ok_ss strtof). Notation ok_s := (ok_s strtof). Notation ok_b := (ok_b strtof).
Notation claim := (claim strtof). Notation claim_r := (claim_r strtof). Notation claim_ss := (claim_ss strtof). Notation claim_k := (claim_k strtof).
Notation claim_f := (claim_f strtof). Notation claim_a := (claim_a strtof).

(** ** References to assign to, calls *)
Lemma ref_left ts e P FN us sc g st rest code g' :
  claim_r ts e -> (next_lv rest < 12)%nat -> ok_e sc e = true -> at_ st (ts ++ rest) -> PS P FN st g us -> scope_ok us sc ->
  gen_e sc e false g = (code, g') -> fits g' ->
  exists st' info pos global m body tail, parses (N_idref true) st (st', (info, global)) /\ code = nils m ++ body ++ tail /\
    root_ok sc e false g' info pos global tail /\
    to P FN st st' rest (nils m ++ body ++ (if info =? TYPE_CLOSURE then tail else [])) g' us.
Proof.
  intros H HL K1 K2 K5 K6 K7 K8. pose proof (low_not_open _ HL) as HO.
  destruct (H true P FN us sc g st rest code g') as (st1 & pre & pos & info & global & m & body & tail & -> & HA1 & HP1 & HPre & HBody & HR & HK); auto.
  { rewrite HO. auto. }
  pose proof (load_step _ _ _ _ _ _ _ _ _ _ _ _ HA1 HP1 HR) as HLd. rewrite HO in HR.
  set (stl := if info =? TYPE_CLOSURE then load_st st1 pos info global else st1).
  assert (HX : at_ stl rest /\ PS P FN stl g' us /\ appends [] (p_code stl) (body ++ (if info =? TYPE_CLOSURE then tail else []))).
  { unfold stl. destruct (info =? TYPE_CLOSURE).
    - split; [exact (to_at HLd)|]. split; [exact (to_PS HLd)|]. apply (to_code _ _ _ _ _ _ _ _ HLd). exact HBody.
    - rewrite app_nil_r. auto. }
  destruct HX as (HX1 & HX2 & HX3).
  exists (set_code stl (pre ++ p_code stl)), info, pos, global, m, body, tail. split; [|split; [auto|split; auto]].
  - apply HK. apply parses_S with (n := O). rewrite (loop_end strtof _ _ _ _ _ _ _ HA1 HL). cbn [negb orb]. unfold stl. rewrite (load_var_end _ _ _ _ _ _ _ _ _ HA1 HO HR).
    destruct (info =? TYPE_CLOSURE); reflexivity.
  - split; [eapply at_same; [exact HX1| |]; reflexivity|]. split; [apply PS_code; auto|]. unfold adds. cbn [p_code set_code]. eapply appends_glue; eauto.
Qed.
Lemma front_nil {A} (a b : list A) : a ++ b = b -> a = [].
Proof. intro H. apply (f_equal (@length A)) in H. rewrite app_length in H. destruct a; auto. cbn in H. lia. Qed.

Definition claim_cmd (ts : list token) (s : stat) : Prop :=
  forall P FN us sc g st rest code g',
    ok_s sc s = true -> at_ st (ts ++ rest) -> next_lv rest = O -> t_type (cur rest) <> TOK_ASSIGN -> PS P FN st g us -> scope_ok us sc ->
    gen_s sc s g = (code, g') -> fits g' ->
    exists st', parses N_command st (st', (0, false)) /\ to P FN st st' rest code g' us.
Lemma cc_assign x a lim ts e : t_type x = TOK_ID -> t_type a = TOK_ASSIGN -> (8 <= lim)%nat -> claim 4 lim ts e -> claim_cmd (x :: a :: ts) (S_assign (t_value x) e).
Proof.
  intros HX HA HLim H P FN us sc g st rest code g' K1 K2 K3 K4 K5 K6 K7 K8. cbn [Source.ok_s gen_s app] in *.
  assert (HG : exists l0 g0 l1, gen_e sc (E_var (t_value x)) false g = (l0, g0) /\ gen_e sc e false g0 = (l1, g') /\
             code = match slot sc (t_value x) with Some i => l1 ++ [insn I_LSTORE i] | None => insn I_PUSHS (fst (addstr g (t_value x))) :: l1 ++ [ins I_GSTORE] end).
  { cbn [gen_e]. unfold gen_load. destruct (slot sc (t_value x)).
    - gens. inversion K7; subst. do 3 eexists. split; [reflexivity|]. split; eauto.
    - destruct (addstr g (t_value x)) as [p g0]. gens. inversion K7; subst. do 3 eexists. split; [reflexivity|]. split; eauto. }
  destruct HG as (l0 & g0 & l1 & HG1 & HG2 & ->). clear K7.
  assert (HF0 : fits g0) by (eapply fits_ext; eauto using ext_e).
  destruct (ref_left [x] (E_var (t_value x)) P FN us sc g st (a :: ts ++ rest) l0 g0) as (st1 & info & pos & global & m & body & tail & HP1 & E0 & HR & H1); auto.
  { apply cr_var; auto. } { unfold next_lv. cbn [cur hd]. rewrite HA. cbn. lia. }
  cbn [root_ok] in HR. cbn [gen_e] in HG1. unfold gen_load in HG1.
  assert (HNC : (info =? TYPE_CLOSURE) = false /\ nils m ++ body = [] /\
                match slot sc (t_value x) with Some i => info = i /\ global = false /\ 0 <= i | None => global = true /\ info = fst (addstr g (t_value x)) end).
  { destruct (slot sc (t_value x)) as [i|].
    - destruct HR as (-> & -> & -> & HI & ->). injection HG1 as E3 E4. split; [unfold TYPE_CLOSURE; lia|]. rewrite <- E3, app_assoc in E0. symmetry in E0. apply front_nil in E0. auto.
    - destruct HR as (-> & HI & ->). destruct (addstr g (t_value x)) as [p g1] eqn:EA. injection HG1 as E3 E4. subst g1. destruct (addstr_spec _ _ _ _ EA) as (HI2 & _).
      rewrite HI2 in HI. inversion HI; subst p. apply index_range in HI2. split; [unfold TYPE_CLOSURE; lia|]. rewrite <- E3, app_assoc in E0. symmetry in E0. apply front_nil in E0. auto. }
  destruct HNC as (HNC & EN & HS). rewrite HNC, app_nil_r, EN in H1.
  set (st2 := if global then emit st1 (i1 "pushs" (print_d info)) else st1).
  assert (H2 : to P FN st1 st2 (a :: ts ++ rest) (when global [insn I_PUSHS info]) g0 us).
  { unfold st2. destruct global; cbn [when]; [eapply to_opn; eauto|apply to_refl; [exact (to_at H1)|exact (to_PS H1)]]. }
  pose proof (to_adv' _ _ _ _ _ _ _ _ _ H2) as H3.
  destruct (H P FN us sc g0 (adv st2) rest l1 g') as (st4 & i & HP4 & H4); auto; try exact (to_at H3); try exact (to_PS H3); try (rewrite K3; lia).
  exists (if global then emit st4 (i0 "gstore") else if 0 <=? info then emit st4 (i1 "lstore" (print_d info)) else if info =? TYPE_TABLE then emit st4 (i0 "tput") else st4).
  split.
  - destruct (parses_join _ _ _ _ _ _ HP1 HP4) as (n & E1 & E2). apply parses_S with (n := n). cbn [Parser.body nt_of] in *.
    rewrite (at_ty _ _ K2). cbn [cur hd]. rewrite HX. cbn [tok_eqb]. rewrite E1. cbn [pbind fst snd]. rewrite (at_ty _ _ (to_at H1)). cbn [cur hd]. rewrite HA. cbn [tok_eqb].
    rewrite HNC. fold st2. rewrite (to_fetch _ _ _ _ _ _ _ _ _ _ H2). rewrite E2. reflexivity.
  - destruct (slot sc (t_value x)) as [j|].
    + destruct HS as (-> & -> & HJ). cbv iota. replace (0 <=? j) with true by lia. pose proof (to_opn _ _ _ _ _ _ _ _ I_LSTORE "lstore" j H4 eq_refl) as H5.
      exact (to_trans (to_trans (to_trans (to_trans H1 H2) H3) H4) H5).
    + destruct HS as (-> & ->). cbv iota. pose proof (to_op _ _ _ _ _ _ _ _ I_GSTORE "gstore" H4 eq_refl) as H5.
      eapply to_eq; [exact (to_trans (to_trans (to_trans (to_trans H1 H2) H3) H4) H5)|]. cbn [when app]. rewrite ?app_nil_r. reflexivity.
Qed.
Lemma cc_put tr e k a lim ts v : claim_r tr (E_get e k) -> (exists t r, tr = t :: r /\ t_type t = TOK_ID) -> t_type a = TOK_ASSIGN -> (8 <= lim)%nat -> claim 4 lim ts v ->
  claim_cmd (tr ++ a :: ts) (S_put e k v).
Proof.
  intros HR (t0 & r0 & E0 & HT0) HA HLim H P FN us sc g st rest code g' K1 K2 K3 K4 K5 K6 K7 K8. cbn [Source.ok_s gen_s] in *. rewrite at_shift in K2. cbn [app] in K2.
  apply andb_true_iff in K1 as [K1 K1'']. gens. inversion K7; subst code g'.
  assert (HG : gen_e sc (E_get e k) false g = (l ++ l0 ++ [ins I_TGET], g1)). { cbn [gen_e]. rewrite Heqp, Heqp0. reflexivity. }
  assert (HF0 : fits g1) by (eapply fits_ext; eauto using ext_e).
  destruct (ref_left _ _ P FN us sc g st (a :: ts ++ rest) (l ++ l0 ++ [ins I_TGET]) g1 HR) as (st1 & info & pos & global & m & body & tail & HP1 & E1 & HRo & H1); eauto.
  { unfold next_lv. cbn [cur hd]. rewrite HA. cbn. lia. }
  cbn [root_ok] in HRo. destruct HRo as (-> & -> & ->). replace (TYPE_TABLE =? TYPE_CLOSURE) with false in H1 by reflexivity. rewrite app_nil_r in H1.
  assert (EN : nils m ++ body = l ++ l0). { rewrite !app_assoc in E1. apply app_inj_tail in E1 as [E1 _]. auto. }
  rewrite EN in H1. pose proof (to_adv' _ _ _ _ _ _ _ _ _ H1) as H3.
  destruct (H P FN us sc g1 (adv st1) rest l1 g2) as (st4 & i & HP4 & H4); auto; try exact (to_at H3); try exact (to_PS H3); try (rewrite K3; lia).
  exists (emit st4 (i0 "tput")). split.
  - destruct (parses_join _ _ _ _ _ _ HP1 HP4) as (n & E2 & E3). apply parses_S with (n := n). cbn [Parser.body nt_of] in *.
    rewrite (at_ty _ _ K2). rewrite E0. cbn [app cur hd]. rewrite HT0. cbn [tok_eqb]. rewrite E2. cbn [pbind fst snd]. rewrite (at_ty _ _ (to_at H1)). cbn [cur hd]. rewrite HA. cbn [tok_eqb].
    replace (TYPE_TABLE =? TYPE_CLOSURE) with false by reflexivity. rewrite (to_fetch _ _ _ _ _ _ _ _ _ _ H1). rewrite E3. reflexivity.
  - pose proof (to_op _ _ _ _ _ _ _ _ I_TPUT "tput" H4 eq_refl) as H5. eapply to_eq; [exact (to_trans (to_trans (to_trans H1 H3) H4) H5)|]. rewrite ?app_nil_r, <- !app_assoc. reflexivity.
Qed.
Lemma cc_call ts f args : claim_r ts (E_call f args) -> (exists t r, ts = t :: r /\ t_type t = TOK_ID) -> claim_cmd ts (S_call f args).
Proof.
  intros HR (t0 & r0 & E0 & HT0) P FN us sc g st rest code g' K1 K2 K3 K4 K5 K6 K7 K8. cbn [Source.ok_s gen_s] in *. gens. inversion K7; subst code g'.
  assert (HG : gen_e sc (E_call f args) false g = (l ++ l0 ++ [insn I_PUSHI (count args); ins I_CALLC], g1)). { cbn [gen_e when app]. rewrite Heqp, Heqp0. reflexivity. }
  destruct (ref_left _ _ P FN us sc g st rest (l ++ l0 ++ [insn I_PUSHI (count args); ins I_CALLC]) g1 HR) as (st1 & info & pos & global & m & body & tail & HP1 & E1 & HRo & H1); eauto. { rewrite K3. lia. }
  cbn [root_ok] in HRo. destruct HRo as (-> & -> & ->). replace (TYPE_CLOSURE =? TYPE_CLOSURE) with true in H1 by reflexivity. rewrite <- E1 in H1.
  pose proof (to_op _ _ _ _ _ _ _ _ I_POP "pop" H1 eq_refl) as H2.
  exists (emit st1 (i0 "pop")). split.
  - destruct HP1 as (n & E2). apply parses_S with (n := n). cbn [Parser.body].
    rewrite (at_ty _ _ K2). rewrite E0. cbn [app cur hd]. rewrite HT0. cbn [tok_eqb]. rewrite E2. cbn [pbind fst snd]. rewrite (at_neq _ _ _ (to_at H1) K4).
    replace (TYPE_CLOSURE =? TYPE_CLOSURE) with true by reflexivity. reflexivity.
  - eapply to_eq; [exact (to_trans H1 H2)|]. rewrite <- !app_assoc. reflexivity.
Qed.
Lemma cc_return t lim ts e : t_type t = TOK_RETURN -> (8 <= lim)%nat -> first_ok 1 ts -> claim 1 lim ts e -> claim_cmd (t :: ts) (S_returnval e).
Proof.
  intros HT HLim (t0 & r0 & E0 & HS) H P FN us sc g st rest code g' K1 K2 K3 K4 K5 K6 K7 K8. cbn [Source.ok_s gen_s app] in *. gens. inversion K7; subst code g'.
  apply andb_true_iff in K1 as [_ K1]. pose proof (to_adv _ _ _ _ _ _ _ K2 K5) as H1.
  destruct (H P FN us sc g (adv st) rest l g0) as (st4 & i & HP4 & H4); auto; try exact (to_at H1); try exact (to_PS H1); try (rewrite K3; lia).
  pose proof (to_op _ _ _ _ _ _ _ _ I_RET1 "ret1" H4 eq_refl) as H5.
  exists (emit st4 (i0 "ret1")). split; [|exact (to_trans (to_trans H1 H4) H5)].
  destruct HP4 as (n & E2). apply parses_S with (n := n). cbn [Parser.body nt_of] in *. rewrite (at_ty _ _ K2). cbn [cur hd]. rewrite HT. cbn [tok_eqb].
  rewrite (fetch_adv _ _ _ K2) by discriminate. rewrite (at_ty _ _ (to_at H1)). rewrite E0. cbn [app cur hd]. destruct HS as (_ & _ & _ & HS).
  assert (HNB : t_type t0 <> TOK_STATEND /\ t_type t0 <> TOK_BLOCKCLOSE) by (cbn in HS; split; intro EE; rewrite EE in HS; intuition discriminate).
  rewrite E2. destruct HNB. destruct (t_type t0); try reflexivity; congruence.
Qed.

(** ** Statements *)
Definition claim_s (ts : list token) (f : nat) (s : stat) : Prop :=
  forall P FN us sc g st rest code g',
    ok_s sc s = true -> at_ st (ts ++ rest) -> follow f rest -> PS P FN st g us -> scope_ok us sc -> names_s FN sc s ->
    gen_s sc s g = (code, g') -> fits g' ->
    exists st' us', parses N_stat st (st', (0, false)) /\ to P FN st st' rest code g' us' /\ scope_ok us' (after sc s) /\ tl us' = tl us /\
      (single_ok s = true -> us' = us).
Definition claim_b (ts : list token) (f : nat) (b : body) : Prop :=
  forall P FN us sc g st rest code g',
    ok_b sc b = true -> at_ st (ts ++ rest) -> follow f rest -> PS P FN st g us -> scope_ok us sc -> gen_b sc b g = (code, g') -> fits g' ->
    exists st', parses N_blockstat st (st', (0, false)) /\ to P FN st st' rest code g' us.
Lemma cb_block o tb f b c : t_type o = TOK_BLOCKOPEN -> claim_k tb f b -> t_type c = TOK_BLOCKCLOSE -> claim_b (o :: tb ++ [c]) 0 (Block b).
Proof.
  intros HO H HC P FN us sc g st rest code g' K1 K2 K3 K5 K6 K7 K8. cbn [Source.ok_b gen_b] in *. gens. inversion K7; subst code g'.
  assert (K2' : at_ st (o :: tb ++ c :: rest)) by (cbn [app] in K2; rewrite <- app_assoc in K2; exact K2).
  destruct (block_true strtof _ _ _ _ _ _ _ _ _ _ _ _ _ _ H HO HC K1 K2' K5 K6 Heqp K8) as (st' & HP & H1). exists st'. split; auto.
  destruct HP as (n & E). apply parses_S with (n := n). cbn [Parser.body]. rewrite (at_ty _ _ K2'). cbn [cur hd]. rewrite HO. exact E.
Qed.
Lemma names_single FN sc s : single_ok s = true -> names_s FN sc s.
Proof. destruct sc, s; cbn; auto; discriminate. Qed.
Lemma stat_type_neq ts r T : first_stat ts -> In T [TOK_BLOCKOPEN; TOK_BLOCKCLOSE; TOK_STATEND; TOK_EOF; TOK_ASSIGN; TOK_ELSE] -> t_type (cur (ts ++ r)) <> T.
Proof. intros H HI. pose proof (stat_first_type ts H r) as HS. intro E. rewrite E in HS. cbn in HS, HI. intuition congruence. Qed.
Lemma cb_single ts f s : first_stat ts -> claim_s ts f s -> claim_b ts f (Single s).
Proof.
  intros HF H P FN us sc g st rest code g' K1 K2 K3 K5 K6 K7 K8. cbn [Source.ok_b gen_b] in *. apply andb_true_iff in K1 as [KS K1].
  destruct (H P FN us sc g st rest code g') as (st' & us' & HP & H1 & _ & _ & HU); auto. { apply names_single; auto. } rewrite (HU KS) in H1. exists st'. split; auto.
  destruct HP as (n & E). apply parses_S with (n := n). cbn [Parser.body]. rewrite (at_neq _ _ _ K2); auto. apply stat_type_neq; auto. cbn; tauto.
Qed.
Lemma cs_cmd ts s : (exists t r, ts = t :: r /\ (t_type t = TOK_ID \/ t_type t = TOK_RETURN)) -> single_ok s = true -> claim_cmd ts s -> claim_s ts 0 s.
Proof.
  intros (t & r & E & HT) HS H P FN us sc g st rest code g' K1 K2 (K3 & K4 & _) K5 K6 KN K7 K8.
  destruct (H P FN us sc g st rest code g') as (st' & HP & H1); auto. exists st', us. split.
  - destruct HP as (n & EP). apply parses_S with (n := n). cbn [Parser.body]. rewrite (at_ty _ _ K2). rewrite E. cbn [app cur hd]. destruct HT as [-> | ->]; exact EP.
  - split; auto. split; auto. replace (after sc s) with sc; auto. destruct s; auto; discriminate.
Qed.
Lemma cs_return t : t_type t = TOK_RETURN -> claim_s [t] 2 S_return.
Proof.
  intros HT P FN us sc g st rest code g' K1 K2 (K3 & K4 & _ & K4') K5 K6 KN K7 K8. cbn [gen_s app] in *. inversion K7; subst. specialize (K4' eq_refl).
  pose proof (to_adv _ _ _ _ _ _ _ K2 K5) as H1. pose proof (to_op _ _ _ _ _ _ _ _ I_RET0 "ret0" H1 eq_refl) as H2. exists (emit (adv st) (i0 "ret0")), us. split.
  - apply parses_S with (n := 1%nat). cbn [Parser.body]. rewrite (at_ty _ _ K2). cbn [cur hd]. rewrite HT. cbn [parse Parser.body]. rewrite (at_ty _ _ K2). cbn [cur hd]. rewrite HT. cbn [tok_eqb].
    rewrite (fetch_adv _ _ _ K2) by discriminate. rewrite (at_ty _ _ (to_at H1)), K4'. reflexivity.
  - split; [exact (to_trans H1 H2)|]. auto.
Qed.

(** ** Declarations *)
Lemma var_start P FN us sc g st x ts p g0 :
  at_ st (x :: ts) -> PS P FN st g us -> scope_ok us sc -> declarable sc (t_value x) = true -> (sc = Top -> ~ In (t_value x) FN) ->
  match sc with Local _ => g0 = g | _ => addstr g (t_value x) = (p, g0) end -> fits g0 ->
  exists us1 s, let st1 := sym_add st (t_value x) SCOPE_AUTO in
    (forall a b : pres, match sym_lookup (t_value x) (p_symst st) with Some s => if sy_global s then a else b | None => a end = a) /\
    sym_lookup (t_value x) (p_symst st1) = Some s /\ to P FN st st1 (x :: ts) [] g0 us1 /\ scope_ok us1 (declare sc (t_value x)) /\ tl us1 = tl us /\
    s = match sc with Local l => mkSym (zlen l) false | _ => mkSym p true end.
Proof.
  intros HA HP HS HD HN HG HF. destruct (at_head _ _ _ HA) as (_ & _ & (_ & _ & _ & HCh) & _). pose proof (lookup_scope (t_value x) us sc HS) as HL.
  assert (HNone : slot sc (t_value x) = None).
  { destruct sc as [| |l]; auto. cbn [slot]. apply index_none. cbn [declarable] in HD. eapply few_app_notin; eauto. }
  rewrite HNone in HL. cbn [option_map] in HL.
  assert (HGo : forall a b : pres, match sym_lookup (t_value x) (p_symst st) with Some s => if sy_global s then a else b | None => a end = a).
  { intros a b. destruct (sym_lookup (t_value x) (p_symst st)) as [s|] eqn:E; auto. rewrite (base_global _ _ _ _ _ _ _ HP HL E). reflexivity. }
  destruct sc as [| |l]; [|discriminate|].
  - cbn [scope_ok] in HS. subst us. destruct (PS_global P FN st g [] (t_value x) p g0 SCOPE_AUTO HP HCh HG HF) as (st1 & E1 & H1 & HR & HT1 & HT2 & HCd & HLk1); [auto|auto|].
    exists [], (mkSym p true). rewrite E1. split; auto. split; auto. split; [|split; [reflexivity|auto]]. split; [eapply at_same; eauto|]. split; auto. unfold adds. rewrite HCd. apply app_nil_code.
  - subst g0. destruct HS as (HFew & t & lower & -> & HRest). destruct (PS_local P FN st g t lower (t_value x) SCOPE_AUTO HP (or_intror eq_refl)) as (st1 & E1 & H1 & H2 & H3 & H4).
    assert (HS0 : scope_ok (t :: lower) (Local l)) by (split; eauto).
    pose proof (scope_add t lower l (t_value x) HS0 HD) as HS1. pose proof (lookup_scope (t_value x) _ _ HS1) as HL1. cbn [slot] in HL1. cbn [slot] in HNone.
    rewrite index_new in HL1 by (apply index_none; auto). cbn [option_map] in HL1. do 2 eexists. rewrite E1. split; auto. destruct (ps_sym _ _ _ _ _ H1) as (base & EB & _).
    split; [rewrite EB, lookup_app, HL1; reflexivity|]. split; [|split; [exact HS1|auto]]. split; [eapply at_same; eauto|]. split; [exact H1|]. unfold adds. rewrite H4. apply app_nil_code.
Qed.
Lemma cs_var v x : t_type v = TOK_VAR -> t_type x = TOK_ID -> claim_s [v; x] 0 (S_var (t_value x)).
Proof.
  intros HV HX P FN us sc g st rest code g' K1 K2 (K3 & K4 & _) K5 K6 KN K7 K8. cbn [Source.ok_s gen_s app after] in *.
  set (p := fst (addstr g (t_value x))). pose proof (to_adv _ _ _ _ _ _ _ K2 K5) as H1.
  assert (HG : match sc with Local _ => g' = g | _ => addstr g (t_value x) = (p, g') end /\
     code = match sc with Local l => [ins I_PUSHNIL; insn I_LSTORE (zlen l)] | _ => [insn I_PUSHS p; ins I_PUSHNIL; ins I_GSTORE] end).
  { unfold p. destruct sc; [| |inversion K7; auto]; destruct (addstr g (t_value x)) as [q gq]; inversion K7; auto. }
  destruct HG as (HG & ->). clear K7.
  destruct (var_start P FN us sc g (adv st) x rest p g') as (us1 & s & HGo & HLk & H2 & HS1 & HTl & Es); auto; try exact (to_at H1); try exact (to_PS H1).
  { intros ->. exact KN. }
  set (st1 := sym_add (adv st) (t_value x) SCOPE_AUTO) in *.
  set (st2 := if sy_global s then emit st1 (i1 "pushs" (print_d (sy_pos s))) else st1).
  assert (H3 : to P FN st1 st2 (x :: rest) (when (sy_global s) [insn I_PUSHS (sy_pos s)]) g' us1).
  { unfold st2. destruct (sy_global s); cbn [when]; [eapply to_opn; eauto|apply to_refl; [exact (to_at H2)|exact (to_PS H2)]]. }
  pose proof (to_adv' _ _ _ _ _ _ _ _ _ H3) as H4. pose proof (to_op _ _ _ _ _ _ _ _ I_PUSHNIL "pushnil" H4 eq_refl) as H5.
  exists (if sy_global s then emit (emit (adv st2) (i0 "pushnil")) (i0 "gstore") else emit (emit (adv st2) (i0 "pushnil")) (i1 "lstore" (print_d (sy_pos s)))), us1. split.
  - apply parses_S with (n := 1%nat). cbn [Parser.body]. rewrite (at_ty _ _ K2). cbn [cur hd]. rewrite HV. cbn [parse Parser.body]. rewrite (tokmatch_ok _ _ _ _ K2 HV).
    rewrite (fetch_adv _ _ _ K2) by discriminate. rewrite (to_match _ _ _ _ _ _ _ _ _ _ _ H1 HX). destruct (at_head _ _ _ (to_at H1)) as (_ & HTk & _). rewrite HTk. cbv zeta.
    rewrite HGo. fold st1. rewrite HLk. fold st2. rewrite (to_fetch _ _ _ _ _ _ _ _ _ _ H3). rewrite (at_neq _ _ _ (to_at H4) K4). destruct (sy_global s); reflexivity.
  - split; [|split; [auto|split; [auto|discriminate]]]. destruct sc as [| |l]; [|discriminate|]; subst s; cbn [sy_global sy_pos when] in *.
    + pose proof (to_op _ _ _ _ _ _ _ _ I_GSTORE "gstore" H5 eq_refl) as H6. exact (to_trans (to_trans (to_trans (to_trans (to_trans H1 H2) H3) H4) H5) H6).
    + pose proof (to_opn _ _ _ _ _ _ _ _ I_LSTORE "lstore" (zlen l) H5 eq_refl) as H6. exact (to_trans (to_trans (to_trans (to_trans (to_trans H1 H2) H3) H4) H5) H6).
Qed.
Lemma cs_varinit v x a lim ts e : t_type v = TOK_VAR -> t_type x = TOK_ID -> t_type a = TOK_ASSIGN -> (8 <= lim)%nat -> claim 4 lim ts e ->
  claim_s (v :: x :: a :: ts) 0 (S_varinit (t_value x) e).
Proof.
  intros HV HX HA HLim H P FN us sc g st rest code g' K1 K2 (K3 & K4 & _) K5 K6 KN K7 K8. cbn [Source.ok_s gen_s app after] in *. apply andb_true_iff in K1 as [KD K1].
  set (p := fst (addstr g (t_value x))). pose proof (to_adv _ _ _ _ _ _ _ K2 K5) as H1.
  assert (HG : exists g0 l1, match sc with Local _ => g0 = g | _ => addstr g (t_value x) = (p, g0) end /\ gen_e (declare sc (t_value x)) e false g0 = (l1, g') /\
     code = match sc with Local l => ins I_PUSHNIL :: insn I_LSTORE (zlen l) :: l1 ++ [insn I_LSTORE (zlen l)] | _ => insn I_PUSHS p :: l1 ++ [ins I_GSTORE] end).
  { unfold p. destruct sc as [| |l].
    - destruct (addstr g (t_value x)) as [q gq]. gens. inversion K7; subst. do 2 eexists. split; [reflexivity|]. split; eauto.
    - destruct (addstr g (t_value x)) as [q gq]. gens. inversion K7; subst. do 2 eexists. split; [reflexivity|]. split; eauto.
    - gens. inversion K7; subst. do 2 eexists. split; [reflexivity|]. split; eauto. }
  destruct HG as (g0 & l1 & HG & HGe & ->). clear K7. assert (HF0 : fits g0) by (eapply fits_ext; eauto using ext_e).
  destruct (var_start P FN us sc g (adv st) x (a :: ts ++ rest) p g0) as (us1 & s & HGo & HLk & H2 & HS1 & HTl & Es); auto; try exact (to_at H1); try exact (to_PS H1).
  { intros ->. exact KN. }
  set (st1 := sym_add (adv st) (t_value x) SCOPE_AUTO) in *.
  set (st2 := if sy_global s then emit st1 (i1 "pushs" (print_d (sy_pos s))) else st1).
  assert (H3 : to P FN st1 st2 (x :: a :: ts ++ rest) (when (sy_global s) [insn I_PUSHS (sy_pos s)]) g0 us1).
  { unfold st2. destruct (sy_global s); cbn [when]; [eapply to_opn; eauto|apply to_refl; [exact (to_at H2)|exact (to_PS H2)]]. }
  pose proof (to_adv' _ _ _ _ _ _ _ _ _ H3) as H4.
  set (st3 := if sy_global s then adv st2 else emit (emit (adv st2) (i0 "pushnil")) (i1 "lstore" (print_d (sy_pos s)))).
  assert (H5 : to P FN (adv st2) st3 (a :: ts ++ rest) (when (negb (sy_global s)) [ins I_PUSHNIL; insn I_LSTORE (sy_pos s)]) g0 us1).
  { unfold st3. destruct (sy_global s); cbn [when negb]; [apply to_refl; [exact (to_at H4)|exact (to_PS H4)]|].
    pose proof (to_op _ _ _ _ _ _ _ _ I_PUSHNIL "pushnil" H4 eq_refl) as HN. exact (to_trans HN (to_opn _ _ _ _ _ _ _ _ I_LSTORE "lstore" (sy_pos s) HN eq_refl)). }
  pose proof (to_adv' _ _ _ _ _ _ _ _ _ H5) as H6.
  destruct (H P FN us1 (declare sc (t_value x)) g0 (adv st3) rest l1 g') as (st4 & i & HP7 & H7); auto; try exact (to_at H6); try exact (to_PS H6); try (rewrite K3; lia).
  exists (if sy_global s then emit st4 (i0 "gstore") else emit st4 (i1 "lstore" (print_d (sy_pos s)))), us1. split.
  - destruct HP7 as (n & HP7). apply parses_S with (n := S n). cbn [Parser.body]. rewrite (at_ty _ _ K2). cbn [cur hd]. rewrite HV. cbn [parse Parser.body]. rewrite (tokmatch_ok _ _ _ _ K2 HV).
    rewrite (fetch_adv _ _ _ K2) by discriminate. rewrite (to_match _ _ _ _ _ _ _ _ _ _ _ H1 HX). destruct (at_head _ _ _ (to_at H1)) as (_ & HTk & _). rewrite HTk. cbv zeta.
    rewrite HGo. fold st1. rewrite HLk. fold st2. rewrite (to_fetch _ _ _ _ _ _ _ _ _ _ H3). rewrite (at_ty _ _ (to_at H4)). cbn [cur hd]. rewrite HA. cbn [tok_eqb]. fold st3.
    rewrite (to_fetch _ _ _ _ _ _ _ _ _ _ H5). cbn [nt_of] in HP7. rewrite HP7. cbn [pbind]. destruct (sy_global s); reflexivity.
  - split; [|split; [auto|split; [auto|discriminate]]].
    pose proof (to_trans (to_trans (to_trans (to_trans (to_trans (to_trans H1 H2) H3) H4) H5) H6) H7) as HH.
    destruct sc as [| |l]; [|discriminate|]; subst s; cbn [sy_global sy_pos when negb] in *.
    + eapply to_eq; [exact (to_trans HH (to_op _ _ _ _ _ _ _ _ I_GSTORE "gstore" H7 eq_refl))|]. reflexivity.
    + eapply to_eq; [exact (to_trans HH (to_opn _ _ _ _ _ _ _ _ I_LSTORE "lstore" (zlen l) H7 eq_refl))|]. reflexivity.
Qed.
(** ** Conditionals and loops *)
Lemma to_labels P FN st st' ts c g us k : to P FN st st' ts c g us -> to P FN st' (set_labels st' (p_labels st' + k)) ts [] (labels g k) us.
Proof. intro H. split; [eapply at_same; [exact (to_at H)| |]; reflexivity|]. split; [apply PS_labels; exact (to_PS H)|apply app_nil_code]. Qed.
Lemma follow0 T : oplevel T = O -> T <> TOK_ASSIGN -> forall t r, t_type t = T -> follow 0 (t :: r).
Proof. intros H1 H2 t r E. unfold follow. cbn [cur hd]. rewrite E. split; [eapply next0; eauto|]. split; auto. split; [lia|discriminate]. Qed.
Lemma follow_max f rest : follow (Nat.max f 1) rest -> follow f rest /\ t_type (cur rest) <> TOK_ELSE.
Proof. intros (A & B & C & D). split; [|apply C; lia]. split; auto. split; auto. split; [intro; apply C; lia|]. intros ->. apply D. reflexivity. Qed.
Lemma same_scope us sc s : scope_ok us sc -> single_ok s = true -> scope_ok us (after sc s) /\ tl us = tl us /\ (single_ok s = true -> us = us).
Proof. intros H HS. split; auto. destruct s; auto; discriminate. Qed.
Lemma cond_step lim tc c P FN us sc g st pc ts l g' : claim 1 lim tc c -> (8 <= lim)%nat -> oplevel (t_type pc) = O ->
  ok_e sc c = true -> at_ st (tc ++ pc :: ts) -> PS P FN st g us -> scope_ok us sc -> gen_e sc c false g = (l, g') -> fits g' ->
  exists st' i, parses N_condition st (st', i) /\ to P FN st st' (pc :: ts) l g' us.
Proof.
  intros H HL HPc K1 K2 K5 K6 K7 K8. destruct (H P FN us sc g st (pc :: ts) l g') as (st' & i & A & B); auto; try (unfold next_lv; cbn [cur hd]; rewrite HPc; lia). eauto.
Qed.
Lemma cs_if i o lim tc c pc tb f b : t_type i = TOK_IF -> t_type o = TOK_PAROPEN -> (8 <= lim)%nat -> claim 1 lim tc c -> t_type pc = TOK_PARCLOSE -> claim_b tb f b ->
  claim_s (i :: o :: tc ++ pc :: tb) (Nat.max f 1) (S_if c b).
Proof.
  intros HI HO HLim H HPc HB P FN us sc g st rest code g' K1 K2 K3 K5 K6 KN K7 K8. apply follow_max in K3 as [K3 K4]. cbn [Source.ok_s gen_s] in *. gens. inversion K7; subst code g'. clear K7.
  apply andb_true_iff in K1 as [K1 K1']. cbn [app] in K2. rewrite <- app_assoc in K2. cbn [app] in K2.
  pose proof (to_labels _ _ _ _ _ _ _ _ 2 (to_refl _ _ _ _ _ _ K2 K5)) as H0. pose proof (ps_lab _ _ _ _ _ K5) as EL.
  pose proof (to_adv' _ _ _ _ _ _ _ _ _ H0) as H1. pose proof (to_adv' _ _ _ _ _ _ _ _ _ H1) as H2. set (st0 := set_labels st (p_labels st + 2)) in *.
  destruct (cond_step lim tc c P FN us sc (labels g 2) (adv (adv st0)) pc (tb ++ rest) l g0) as (st3 & j & HP3 & H3); auto; try exact (to_at H2); try exact (to_PS H2).
  { rewrite HPc. reflexivity. } { eapply fits_ext; eauto using ext_b. }
  pose proof (to_adv' _ _ _ _ _ _ _ _ _ H3) as H4. pose proof (to_jump _ _ _ _ _ _ _ _ I_JUMPZ "jumpz" (p_labels st) H4 eq_refl) as H5.
  destruct (HB P FN us sc g0 (emit (adv st3) (i1 "jumpz" (labref (p_labels st)))) rest l0 g1) as (st6 & HP6 & H6); auto; try exact (to_at H5); try exact (to_PS H5).
  pose proof (to_lab _ _ _ _ _ _ _ _ (p_labels st) H6) as H7.
  exists (emit st6 (labref (p_labels st))), us. split.
  - destruct (parses_join _ _ _ _ _ _ HP3 HP6) as (n & E1 & E2). apply parses_S with (n := S n). cbn [Parser.body]. rewrite (at_ty _ _ K2). cbn [cur hd]. rewrite HI. cbn [parse Parser.body]. cbv zeta.
    fold st0. rewrite (to_match _ _ _ _ _ _ _ _ _ _ _ H0 HI), (to_fetch _ _ _ _ _ _ _ _ _ _ H0), (to_match _ _ _ _ _ _ _ _ _ _ _ H1 HO), (to_fetch _ _ _ _ _ _ _ _ _ _ H1), E1. cbn [pbind].
    rewrite (to_match _ _ _ _ _ _ _ _ _ _ _ H3 HPc), (to_fetch _ _ _ _ _ _ _ _ _ _ H3), E2. cbn [pbind]. rewrite (at_neq _ _ _ (to_at H6) K4). reflexivity.
  - split; [|apply same_scope; auto]. eapply to_eq; [exact (to_trans (to_trans (to_trans (to_trans (to_trans (to_trans (to_trans H0 H1) H2) H3) H4) H5) H6) H7)|].
    rewrite EL. cbn [app]. rewrite ?app_nil_r, <- !app_assoc. reflexivity.
Qed.
Lemma cs_ifelse i o lim tc c pc tb1 b1 el tb2 f b2 : t_type i = TOK_IF -> t_type o = TOK_PAROPEN -> (8 <= lim)%nat -> claim 1 lim tc c -> t_type pc = TOK_PARCLOSE ->
  claim_b tb1 0 b1 -> t_type el = TOK_ELSE -> claim_b tb2 f b2 -> claim_s (i :: o :: tc ++ pc :: tb1 ++ el :: tb2) f (S_ifelse c b1 b2).
Proof.
  intros HI HO HLim H HPc HB HEl HB2 P FN us sc g st rest code g' K1 K2 K3 K5 K6 KN K7 K8. cbn [Source.ok_s gen_s] in *. gens. inversion K7; subst code g'. clear K7.
  apply andb_true_iff in K1 as [K1 K1'']. apply andb_true_iff in K1 as [K1 K1']. cbn [app] in K2. rewrite <- app_assoc in K2. cbn [app] in K2. rewrite <- app_assoc in K2. cbn [app] in K2.
  pose proof (to_labels _ _ _ _ _ _ _ _ 2 (to_refl _ _ _ _ _ _ K2 K5)) as H0. pose proof (ps_lab _ _ _ _ _ K5) as EL.
  pose proof (to_adv' _ _ _ _ _ _ _ _ _ H0) as H1. pose proof (to_adv' _ _ _ _ _ _ _ _ _ H1) as H2. set (st0 := set_labels st (p_labels st + 2)) in *.
  assert (HF1 : fits g1) by (eapply fits_ext; eauto using ext_b). assert (HF0 : fits g0) by (eapply fits_ext; eauto using ext_b).
  destruct (cond_step lim tc c P FN us sc (labels g 2) (adv (adv st0)) pc (tb1 ++ el :: tb2 ++ rest) l g0) as (st3 & j & HP3 & H3); auto; try exact (to_at H2); try exact (to_PS H2).
  { rewrite HPc. reflexivity. }
  pose proof (to_adv' _ _ _ _ _ _ _ _ _ H3) as H4. pose proof (to_jump _ _ _ _ _ _ _ _ I_JUMPZ "jumpz" (p_labels st) H4 eq_refl) as H5.
  destruct (HB P FN us sc g0 (emit (adv st3) (i1 "jumpz" (labref (p_labels st)))) (el :: tb2 ++ rest) l0 g1) as (st6 & HP6 & H6); auto; try exact (to_at H5); try exact (to_PS H5).
  { apply (follow0 TOK_ELSE); auto; discriminate. }
  pose proof (to_adv' _ _ _ _ _ _ _ _ _ H6) as H7. pose proof (to_jump _ _ _ _ _ _ _ _ I_JUMP "jump" (p_labels st + 1) H7 eq_refl) as H8.
  pose proof (to_lab _ _ _ _ _ _ _ _ (p_labels st) H8) as H9. set (st9 := emit (emit (adv st6) (i1 "jump" (labref (p_labels st + 1)))) (labref (p_labels st))) in *.
  destruct (HB2 P FN us sc g1 st9 rest l1 g2) as (st10 & HP10 & H10); auto; try exact (to_at H9); try exact (to_PS H9).
  pose proof (to_lab _ _ _ _ _ _ _ _ (p_labels st + 1) H10) as H11.
  exists (emit st10 (labref (p_labels st + 1))), us. split.
  - destruct (parses_join3 _ _ _ _ _ _ _ _ _ HP3 HP6 HP10) as (n & E1 & E2 & E3). apply parses_S with (n := S n). cbn [Parser.body]. rewrite (at_ty _ _ K2). cbn [cur hd]. rewrite HI.
    cbn [parse Parser.body]. cbv zeta.
    fold st0. rewrite (to_match _ _ _ _ _ _ _ _ _ _ _ H0 HI), (to_fetch _ _ _ _ _ _ _ _ _ _ H0), (to_match _ _ _ _ _ _ _ _ _ _ _ H1 HO), (to_fetch _ _ _ _ _ _ _ _ _ _ H1), E1. cbn [pbind].
    rewrite (to_match _ _ _ _ _ _ _ _ _ _ _ H3 HPc), (to_fetch _ _ _ _ _ _ _ _ _ _ H3), E2. cbn [pbind]. rewrite (at_ty _ _ (to_at H6)). cbn [cur hd]. rewrite HEl. cbn [tok_eqb].
    rewrite (to_fetch _ _ _ _ _ _ _ _ _ _ H6). fold st9. rewrite E3. reflexivity.
  - split; [|apply same_scope; auto]. eapply to_eq; [exact (to_trans (to_trans (to_trans (to_trans (to_trans (to_trans (to_trans (to_trans (to_trans (to_trans (to_trans H0 H1) H2) H3) H4) H5) H6) H7) H8) H9) H10) H11)|].
    rewrite EL. cbn [app]. rewrite ?app_nil_r, <- !app_assoc. cbn [app]. reflexivity.
Qed.
Lemma cs_while i o lim tc c pc tb f b : t_type i = TOK_WHILE -> t_type o = TOK_PAROPEN -> (8 <= lim)%nat -> claim 1 lim tc c -> t_type pc = TOK_PARCLOSE -> claim_b tb f b ->
  claim_s (i :: o :: tc ++ pc :: tb) f (S_while c b).
Proof.
  intros HI HO HLim H HPc HB P FN us sc g st rest code g' K1 K2 K3 K5 K6 KN K7 K8. cbn [Source.ok_s gen_s] in *. gens. inversion K7; subst code g'. clear K7.
  apply andb_true_iff in K1 as [K1 K1']. cbn [app] in K2. rewrite <- app_assoc in K2. cbn [app] in K2.
  pose proof (to_labels _ _ _ _ _ _ _ _ 2 (to_refl _ _ _ _ _ _ K2 K5)) as H0. pose proof (ps_lab _ _ _ _ _ K5) as EL.
  pose proof (to_adv' _ _ _ _ _ _ _ _ _ H0) as H1. pose proof (to_adv' _ _ _ _ _ _ _ _ _ H1) as H2. set (st0 := set_labels st (p_labels st + 2)) in *.
  pose proof (to_lab _ _ _ _ _ _ _ _ (p_labels st) H2) as H2'.
  destruct (cond_step lim tc c P FN us sc (labels g 2) (emit (adv (adv st0)) (labref (p_labels st))) pc (tb ++ rest) l g0) as (st3 & j & HP3 & H3); auto; try exact (to_at H2'); try exact (to_PS H2').
  { rewrite HPc. reflexivity. } { eapply fits_ext; eauto using ext_b. }
  pose proof (to_adv' _ _ _ _ _ _ _ _ _ H3) as H4. pose proof (to_jump _ _ _ _ _ _ _ _ I_JUMPZ "jumpz" (p_labels st + 1) H4 eq_refl) as H5.
  destruct (HB P FN us sc g0 (emit (adv st3) (i1 "jumpz" (labref (p_labels st + 1)))) rest l0 g1) as (st6 & HP6 & H6); auto; try exact (to_at H5); try exact (to_PS H5).
  pose proof (to_jump _ _ _ _ _ _ _ _ I_JUMP "jump" (p_labels st) H6 eq_refl) as H7. pose proof (to_lab _ _ _ _ _ _ _ _ (p_labels st + 1) H7) as H8.
  eexists. exists us. split.
  - destruct (parses_join _ _ _ _ _ _ HP3 HP6) as (n & E1 & E2). apply parses_S with (n := S n). cbn [Parser.body]. rewrite (at_ty _ _ K2). cbn [cur hd]. rewrite HI. cbn [parse Parser.body]. cbv zeta.
    fold st0. rewrite (to_match _ _ _ _ _ _ _ _ _ _ _ H0 HI), (to_fetch _ _ _ _ _ _ _ _ _ _ H0), (to_match _ _ _ _ _ _ _ _ _ _ _ H1 HO), (to_fetch _ _ _ _ _ _ _ _ _ _ H1), E1. cbn [pbind].
    rewrite (to_match _ _ _ _ _ _ _ _ _ _ _ H3 HPc), (to_fetch _ _ _ _ _ _ _ _ _ _ H3), E2. cbn [pbind]. reflexivity.
  - split; [|apply same_scope; auto]. eapply to_eq; [exact (to_trans (to_trans (to_trans (to_trans (to_trans (to_trans (to_trans (to_trans (to_trans H0 H1) H2) H2') H3) H4) H5) H6) H7) H8)|].
    rewrite EL. cbn [app]. rewrite ?app_nil_r, <- !app_assoc. cbn [app]. reflexivity.
Qed.
Lemma cs_for w o ti i s1 lim tc c s2 tu u pc tb f b : t_type w = TOK_FOR -> t_type o = TOK_PAROPEN -> claim_cmd ti i -> t_type s1 = TOK_LISTSEP -> (8 <= lim)%nat -> claim 1 lim tc c ->
  t_type s2 = TOK_LISTSEP -> claim_cmd tu u -> t_type pc = TOK_PARCLOSE -> claim_b tb f b -> claim_s (w :: o :: ti ++ s1 :: tc ++ s2 :: tu ++ pc :: tb) f (S_for i c u b).
Proof.
  intros HW HO HCi HS1 HLim H HS2 HCu HPc HB P FN us sc g st rest code g' K1 K2 K3 K5 K6 KN K7 K8. cbn [Source.ok_s gen_s] in *. gens. inversion K7; subst code g'. clear K7.
  apply andb_true_iff in K1 as [_ K1]. apply andb_true_iff in K1 as [K1 Kb]. apply andb_true_iff in K1 as [K1 Ku]. apply andb_true_iff in K1 as [Ki Kc].
  cbn [app] in K2. rewrite <- app_assoc in K2. cbn [app] in K2. rewrite <- app_assoc in K2. cbn [app] in K2. rewrite <- app_assoc in K2. cbn [app] in K2.
  pose proof (to_labels _ _ _ _ _ _ _ _ 4 (to_refl _ _ _ _ _ _ K2 K5)) as H0. pose proof (ps_lab _ _ _ _ _ K5) as EL. set (n := p_labels st) in *.
  pose proof (to_adv' _ _ _ _ _ _ _ _ _ H0) as H1. pose proof (to_adv' _ _ _ _ _ _ _ _ _ H1) as H2. set (st0 := set_labels st (n + 4)) in *.
  assert (HF2 : fits g2) by (eapply fits_ext; eauto using ext_b). assert (HF1 : fits g1) by (eapply fits_ext; eauto using ext_s). assert (HF0 : fits g0) by (eapply fits_ext; eauto using ext_e).
  destruct (HCi P FN us sc (labels g 4) (adv (adv st0)) (s1 :: tc ++ s2 :: tu ++ pc :: tb ++ rest) l g0) as (st3 & HP3 & H3); auto; try exact (to_at H2); try exact (to_PS H2).
  { eapply next0; eauto. reflexivity. } { cbn [cur hd]. rewrite HS1. discriminate. }
  pose proof (to_adv' _ _ _ _ _ _ _ _ _ H3) as H4. pose proof (to_lab _ _ _ _ _ _ _ _ n H4) as H5.
  destruct (cond_step lim tc c P FN us sc g0 (emit (adv st3) (labref n)) s2 (tu ++ pc :: tb ++ rest) l0 g1) as (st6 & j & HP6 & H6); auto; try exact (to_at H5); try exact (to_PS H5).
  { rewrite HS2. reflexivity. }
  pose proof (to_adv' _ _ _ _ _ _ _ _ _ H6) as H7. pose proof (to_jump _ _ _ _ _ _ _ _ I_JUMPNZ "jumpnz" (n + 2) H7 eq_refl) as H8.
  pose proof (to_jump _ _ _ _ _ _ _ _ I_JUMP "jump" (n + 3) H8 eq_refl) as H9. pose proof (to_lab _ _ _ _ _ _ _ _ (n + 1) H9) as H10.
  match type of H10 with to _ _ _ ?s _ _ _ _ => set (st10 := s) in * end.
  destruct (HCu P FN us sc g1 st10 (pc :: tb ++ rest) l1 g2) as (st11 & HP11 & H11); auto; try exact (to_at H10); try exact (to_PS H10).
  { eapply next0; eauto. reflexivity. } { cbn [cur hd]. rewrite HPc. discriminate. }
  pose proof (to_adv' _ _ _ _ _ _ _ _ _ H11) as H12. pose proof (to_jump _ _ _ _ _ _ _ _ I_JUMP "jump" n H12 eq_refl) as H13. pose proof (to_lab _ _ _ _ _ _ _ _ (n + 2) H13) as H14.
  match type of H14 with to _ _ _ ?s _ _ _ _ => set (st14 := s) in * end.
  destruct (HB P FN us sc g2 st14 rest l2 g3) as (st15 & HP15 & H15); auto; try exact (to_at H14); try exact (to_PS H14).
  pose proof (to_jump _ _ _ _ _ _ _ _ I_JUMP "jump" (n + 1) H15 eq_refl) as H16. pose proof (to_lab _ _ _ _ _ _ _ _ (n + 3) H16) as H17.
  eexists. exists us. split.
  - destruct (parses_join4 _ _ _ _ _ _ _ _ _ _ _ _ HP3 HP6 HP11 HP15) as (k & E1 & E2 & E3 & E4). apply parses_S with (n := S k). cbn [Parser.body]. rewrite (at_ty _ _ K2). cbn [cur hd]. rewrite HW.
    cbn [parse Parser.body]. cbv zeta. fold n. fold st0. rewrite (to_match _ _ _ _ _ _ _ _ _ _ _ H0 HW), (to_fetch _ _ _ _ _ _ _ _ _ _ H0), (to_match _ _ _ _ _ _ _ _ _ _ _ H1 HO), (to_fetch _ _ _ _ _ _ _ _ _ _ H1), E1. cbn [pbind].
    rewrite (to_match _ _ _ _ _ _ _ _ _ _ _ H3 HS1), (to_fetch _ _ _ _ _ _ _ _ _ _ H3), E2. cbn [pbind].
    rewrite (to_match _ _ _ _ _ _ _ _ _ _ _ H6 HS2), (to_fetch _ _ _ _ _ _ _ _ _ _ H6). replace (n + 1 + 1) with (n + 2) by lia. replace (n + 2 + 1) with (n + 3) by lia. fold st10. rewrite E3. cbn [pbind].
    rewrite (to_match _ _ _ _ _ _ _ _ _ _ _ H11 HPc), (to_fetch _ _ _ _ _ _ _ _ _ _ H11). fold st14. rewrite E4. cbn [pbind]. reflexivity.
  - split; [|apply same_scope; auto].
    pose proof (to_trans (to_trans (to_trans (to_trans (to_trans (to_trans (to_trans (to_trans (to_trans (to_trans H0 H1) H2) H3) H4) H5) H6) H7) H8) H9) H10) as HH.
    eapply to_eq; [exact (to_trans (to_trans (to_trans (to_trans (to_trans (to_trans (to_trans HH H11) H12) H13) H14) H15) H16) H17)|].
    rewrite EL. cbn [app]. rewrite ?app_nil_r, <- !app_assoc. cbn [app]. reflexivity.
Qed.

(** ** Function definitions *)
Lemma fun_name P FN g st x ts p g0 : at_ st (x :: ts) -> PS P FN st g [] -> addstr g (t_value x) = (p, g0) -> fits g0 ->
  let st1 := match sym_lookup (t_value x) (p_symst st) with None => sym_add st (t_value x) SCOPE_AUTO | Some _ => st end in
  to P FN st st1 (x :: ts) [] g0 [] /\ sym_lookup (t_value x) (p_symst st1) = Some (mkSym p true).
Proof.
  intros HA HP HG HF st1. destruct (at_head _ _ _ HA) as (_ & _ & (_ & _ & _ & HCh) & _). destruct (ps_sym _ _ _ _ _ HP) as (base & EB & _ & HB). cbn [app] in EB.
  unfold st1. destruct (sym_lookup (t_value x) (p_symst st)) as [s|] eqn:EL.
  - rewrite EB in EL. cbn [sym_lookup] in EL. destruct (symt_get base (t_value x)) as [s'|] eqn:EG; [|discriminate]. inversion EL; subst s'. destruct (HB _ _ EG) as [B1 B2].
    unfold addstr in HG. rewrite B2 in HG. inversion HG; subst. split; [apply to_refl; auto|]. rewrite EB. cbn [sym_lookup]. rewrite EG. destruct s as [sp sg]. cbn in B1. subst sg. reflexivity.
  - destruct (PS_global P FN st g [] (t_value x) p g0 SCOPE_AUTO HP HCh HG HF) as (st2 & E1 & H1 & HR & HT1 & HT2 & HCd & HLk1); [auto|auto|].
    rewrite E1. split; auto. split; [eapply at_same; eauto|]. split; auto. unfold adds. rewrite HCd. apply app_nil_code.
Qed.
Lemma cs_fun fu nm o tp ps c bo tb f b bc id : t_type fu = TOK_FUN -> t_type nm = TOK_ID -> t_type o = TOK_PAROPEN -> spells_params tp ps -> t_type c = TOK_PARCLOSE ->
  t_type bo = TOK_BLOCKOPEN -> claim_k tb f b -> t_type bc = TOK_BLOCKCLOSE -> claim_s (fu :: nm :: o :: tp ++ c :: bo :: tb ++ [bc]) 0 (S_fun id (t_value nm) ps b).
Proof.
  intros HFu HNm HO HPs HC HBo H HBc P FN us sc g st rest code g' K1 K2 K3 K5 K6 KN K7 K8. cbn [Source.ok_s gen_s] in K1, K7.
  destruct sc; try discriminate. apply andb_true_iff in K1 as [KF KO]. cbn [scope_ok] in K6. subst us. cbn [names_s] in KN. set (x := t_value nm) in *.
  replace ((fu :: nm :: o :: tp ++ c :: bo :: tb ++ [bc]) ++ rest) with (fu :: nm :: o :: tp ++ c :: bo :: tb ++ bc :: rest) in K2.
  2: { cbn [app]. do 3 f_equal. rewrite <- app_assoc. cbn [app]. do 2 f_equal. rewrite <- app_assoc. reflexivity. }
  destruct (addstr g x) as [p g0] eqn:EA. cbn [snd] in K7.
  destruct (gen_ss (Local (fun_vars Top ps)) b (mkG (g_lab g0 + 1) (g_strs g0) [])) as [l g1] eqn:EG. inversion K7; subst code g'. clear K7.
  assert (HE : ext (mkG (g_lab g0 + 1) (g_strs g0) []) g1) by (eapply ext_ss; eauto).
  assert (HF0 : fits g0). { destruct HE as ((sl & ES) & _). unfold fits in *. cbn [g_strs] in *. rewrite ES, zlen_app in K8. pose proof (zlen_nonneg sl). lia. }
  pose proof (to_adv _ _ _ _ _ _ _ K2 K5) as H1.
  destruct (fun_name P FN g (adv st) nm (o :: tp ++ c :: bo :: tb ++ bc :: rest) p g0 (to_at H1) (to_PS H1) EA HF0) as [H2 HLk]. fold x in H2, HLk.
  set (st1 := match sym_lookup x (p_symst (adv st)) with None => sym_add (adv st) x SCOPE_AUTO | Some _ => adv st end) in *.
  set (sy := Some (mkCs x (mkSym p true) true)).
  assert (HP2 : PS (p_chunks st1 ++ [mkChunk (g_lab g0) sy []]) FN (chunk_push st1 sy) (mkG (g_lab g0 + 1) (g_strs g0) []) []).
  { rewrite <- (ps_lab _ _ _ _ _ (to_PS H2)) at 1. apply PS_fun_start with (P := P); [exact (to_PS H2)|]. intros s Es. inversion Es; subst. exact KN. }
  assert (HA2 : at_ (chunk_push st1 sy) (nm :: o :: tp ++ c :: bo :: tb ++ bc :: rest)) by (eapply at_same; [exact (to_at H2)| |]; reflexivity).
  set (P' := p_chunks st1 ++ [mkChunk (g_lab g0) sy []]) in *. set (gi := mkG (g_lab g0 + 1) (g_strs g0) []) in *.
  pose proof (to_adv _ _ _ _ _ _ _ HA2 HP2) as H3. pose proof (to_adv' _ _ _ _ _ _ _ _ _ H3) as H3'. set (st3 := adv (adv (chunk_push st1 sy))) in *.
  destruct (self_add _ _ _ _ _ (to_PS H3')) as (t & HP4 & HS4 & ET & ER & EC); [constructor|]. set (st4 := add_self (symt_push st3)) in *.
  assert (HA4 : at_ st4 (tp ++ c :: bo :: tb ++ bc :: rest)) by (eapply at_same; [exact (to_at H3')| |]; auto).
  change (fun_vars Top ps) with ([bs "self"] ++ ps) in *.
  destruct (fun_body strtof _ _ _ _ _ _ _ _ _ _ _ _ _ _ _ _ _ _ HPs H HC HBo HBc KO KF HA4 HP4 HS4 EG K8) as (st5 & st6 & u & HI & HA5 & HB & H6).
  pose proof (to_op _ _ _ _ _ _ _ _ I_RET0 "ret0" H6 eq_refl) as H7.
  pose proof (to_trans H6 H7) as (HA7 & HP7 & HC7). unfold adds in HC7. rewrite EC in HC7. unfold st3 in HC7. rewrite !adv_code in HC7. cbn [chunk_push p_code set_labels set_code] in HC7.
  rewrite <- app_assoc in HC7.
  exists (chunk_pop (symt_pop (emit st6 (i0 "ret0"))) (length (p_chunks st1)) (p_code st1)), []. split.
  - destruct (parses_join _ _ _ _ _ _ HI HB) as (n & E1 & E2). apply parses_S with (n := S n). cbn [Parser.body]. rewrite (at_ty _ _ K2). cbn [cur hd]. rewrite HFu.
    cbn [parse]. cbn [Parser.body]. rewrite (tokmatch_ok _ _ _ _ K2 HFu). rewrite (fetch_adv _ _ _ K2) by discriminate. rewrite (to_match _ _ _ _ _ _ _ _ _ _ _ H1 HNm).
    destruct (ps_sym _ _ _ _ _ (to_PS H1)) as (base & EB & _). replace (1 <? zlen (p_symst (adv st))) with false by (rewrite EB; reflexivity). cbv zeta.
    destruct (at_head _ _ _ (to_at H1)) as (_ & HTk & _). rewrite HTk. fold x. fold st1. rewrite HLk. fold sy.
    rewrite (fetch_adv _ _ _ HA2) by discriminate. rewrite (to_match _ _ _ _ _ _ _ _ _ _ _ H3 HO). rewrite (to_fetch _ _ _ _ _ _ _ _ _ _ H3). fold st3. fold st4. rewrite E1. cbn [pbind].
    rewrite (tokmatch_ok _ _ _ _ HA5 HC). rewrite (fetch_adv _ _ _ HA5) by discriminate. rewrite (at_ty _ _ (at_adv _ _ _ HA5)). cbn [cur hd]. rewrite HBo. cbn [tok_eqb]. rewrite E2. cbn [pbind]. reflexivity.
  - split; [|split; [reflexivity|split; [reflexivity|discriminate]]]. split; [eapply at_same; [exact HA7| |]; reflexivity|]. split.
    + eapply PS_fun_end; [exact (to_PS H2)|reflexivity|exact HP7|exact HE|exact HC7|]. exists p. split; auto. destruct HE as ((sl & ES) & _). rewrite ES. apply index_ext.
      destruct (addstr_spec _ _ _ _ EA) as (HIx & _). exact HIx.
    + unfold adds, chunk_pop. cbn [p_code set_code]. eapply (appends_app _ _ _ [] []); [apply H1|apply H2].
Qed.
(** ** Lists of statements *)
Lemma statloop_end st rest : at_ st rest -> t_type (cur rest) = TOK_EOF \/ t_type (cur rest) = TOK_BLOCKCLOSE -> parses N_statloop st (st, (0, false)).
Proof. intros HA HT. apply parses_S with (n := O). cbn [Parser.body]. rewrite (at_ty _ _ HA). destruct HT as [-> | ->]; reflexivity. Qed.
Lemma css_one ts f s : claim_s ts f s -> claim_ss ts f (Ss_cons s Ss_nil).
Proof.
  intros H P FN us sc g st rest code g' K1 K2 K3 K4 K5 K6 (KN & _) K7 K8. cbn [Source.ok_ss gen_ss afters] in *. gens. inversion K7; subst. rewrite andb_true_r in K1. rewrite app_nil_r.
  destruct (H P FN us sc g st rest l g') as (st1 & us1 & HP1 & H1 & H2 & H3 & _); auto.
  { unfold follow. destruct K3 as [K3|K3]; rewrite K3 in *; repeat split; try discriminate; auto; unfold next_lv; rewrite K3; reflexivity. }
  exists st1, (0, false), st1, us1. split; auto. split; [eapply statloop_end; eauto; exact (to_at H1)|]. auto.
Qed.
Lemma css_more ts f s tr f' l : claim_s ts f s -> f <> 2%nat -> first_stat tr -> claim_ss tr f' l -> claim_ss (ts ++ tr) f' (Ss_cons s l).
Proof.
  intros H HN HF HS P FN us sc g st rest code g' K1 K2 K3 K4 K5 K6 (KN & KN') K7 K8. cbn [Source.ok_ss gen_ss afters] in *. gens. inversion K7; subst. clear K7. apply andb_true_iff in K1 as [K1 K1'].
  rewrite <- app_assoc in K2. pose proof (stat_first_type tr HF rest) as HT.
  destruct (H P FN us sc g st (tr ++ rest) l0 g0) as (st1 & us1 & HP1 & H1 & H2 & H3 & _); auto.
  { unfold follow, next_lv. cbn [In] in HT. split; [|split; [|split]]; try congruence; destruct HT as [E|[E|[E|[E|[E|[E|[E|[]]]]]]]]; rewrite <- E; try reflexivity; discriminate. }
  { eapply fits_ext; eauto using ext_ss. }
  destruct (HS P FN us1 (after sc s) g0 st1 rest l1 g') as (st2 & j & st3 & us3 & HP2 & HP3 & H4 & H5 & H6); auto; try exact (to_at H1); try exact (to_PS H1).
  exists st1, (0, false), st3, us3. split; auto. split; [|split; [exact (to_trans H1 H4)|split; [auto|congruence]]].
  destruct (parses_join _ _ _ _ _ _ HP2 HP3) as (n & E1 & E2). apply parses_S with (n := n). cbn [Parser.body]. rewrite (at_ty _ _ (to_at H1)).
  cbn [In] in HT. destruct HT as [E|[E|[E|[E|[E|[E|[E|[]]]]]]]]; rewrite <- E; cbn [tok_eqb andb]; rewrite E1; exact E2.
Qed.

(** ** The whole grammar *)
Definition cmd_ok (ts : list token) (s : stat) : Prop := claim_cmd ts s /\ single_ok s = true.
Theorem all_claims :
  (forall lv lim ts e, spells lv lim ts e -> claim lv lim ts e) /\ (forall ts e, spells_ref ts e -> claim_r ts e) /\
  (forall ts l, spells_args ts l -> claim_a ts l) /\ (forall ts l, spells_fields ts l -> claim_f ts l) /\
  (forall ts s, spells_cmd ts s -> cmd_ok ts s) /\ (forall ts f s, spells_stat ts f s -> claim_s ts f s) /\
  (forall ts f b, spells_body ts f b -> claim_b ts f b) /\ (forall ts f b, spells_block ts f b -> claim_k ts f b) /\
  (forall ts f b, spells_stats ts f b -> claim_ss ts f b).
Proof.
  destruct first_all as (F1 & F2 & F3 & F4 & F5 & F6 & F7 & F8 & F9).
  apply sp_all; intros;
    repeat match goal with
      | H : spells _ ?lim _ _ |- _ => let A := fresh "F" in pose proof (F1 _ _ _ _ H) as A; destruct A as (? & ? & ?); clear H
      | H : spells_ref _ _ |- _ => apply F2 in H
      | H : spells_args _ _ |- _ => apply F3 in H as [? ?]
      | H : spells_fields _ _ |- _ => apply F4 in H
      | H : spells_cmd _ _ |- _ => apply F5 in H
      | H : spells_stat _ _ _ |- _ => apply F6 in H
      | H : spells_block _ _ _ |- _ => clear H
      | H : spells_stats _ _ _ |- _ => apply F9 in H
      | H : spells_body _ _ _ |- _ => clear H
      | H : cmd_ok _ _ |- _ => destruct H
      end.
  all: try solve [eauto using cl_chain, cl_cmp, cl_pow, cl_up, cl_not, cl_bnot, cl_nil, cl_num, cl_sign, cl_neg, cl_pos, cl_str, cl_paren, cl_table0, cl_table,
    cl_arg1, cl_arg, cl_field1, cl_field, cl_ref, cr_var, cr_dot, cr_idx, cl_lambda, cs_cmd, cs_var, cs_varinit, cs_return, cs_if, cs_ifelse, cs_while, cs_for, cs_fun, cb_block, cb_single, css_one, css_more].
  - apply (cr_call strtof ts e o [] Es_nil c); auto. apply cl_none.
  - apply cr_call; auto. apply cl_some; auto.
  - split; [eapply cc_assign; eauto|reflexivity].
  - split; [eapply cc_put; eauto|reflexivity].
  - split; [eapply cc_call; eauto|reflexivity].
  - split; [eapply cc_return; eauto|reflexivity].
  - left. auto.
  - right. auto.
Qed.
(** What the parser emits for the statements of a script. *)
Theorem script_claim ts f l : spells_stats ts f l -> claim_ss ts f l.
Proof. apply all_claims. Qed.
End Stats.
