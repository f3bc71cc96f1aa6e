(** The parser emits the code of Gen.v: operands, tables, references and calls. *)
From Coq Require Import String.
From Verif Require Import Base ListLemmas Dict DictSpec DictProofs PDict PDictKeys Strman StrmanProofs Text TextProofs Lex Instr Asm AsmSpec
  Parser ParserFuel Source Gen GenExt PgBase PgSym PgExpr.
Local Open Scope Z_scope. Local Open Scope list_scope.

Ltac Zify.zify_post_hook ::= idtac.
Ltac gens :=
  repeat match goal with
  | H : context [gen_e ?sc ?e ?c ?g] |- _ => lazymatch type of H with gen_e _ _ _ _ = (_, _) => fail | _ => destruct (gen_e sc e c g) as [? ?] eqn:? end
  | H : context [gen_es ?sc ?e ?g] |- _ => lazymatch type of H with gen_es _ _ _ = (_, _) => fail | _ => destruct (gen_es sc e g) as [? ?] eqn:? end
  | H : context [gen_f ?sc ?e ?g] |- _ => lazymatch type of H with gen_f _ _ _ = (_, _) => fail | _ => destruct (gen_f sc e g) as [? ?] eqn:? end
  | H : context [gen_s ?sc ?e ?g] |- _ => lazymatch type of H with gen_s _ _ _ = (_, _) => fail | _ => destruct (gen_s sc e g) as [? ?] eqn:? end
  | H : context [gen_b ?sc ?e ?g] |- _ => lazymatch type of H with gen_b _ _ _ = (_, _) => fail | _ => destruct (gen_b sc e g) as [? ?] eqn:? end
  | H : context [gen_ss ?sc ?e ?g] |- _ => lazymatch type of H with gen_ss _ _ _ = (_, _) => fail | _ => destruct (gen_ss sc e g) as [? ?] eqn:? end
  | H : context [addstr ?g ?x] |- _ => lazymatch type of H with addstr _ _ = (_, _) => fail | _ => destruct (addstr g x) as [? ?] eqn:? end
  end.
(** The token under the head. *)
Lemma at_head st t ts : at_ st (t :: ts) -> ty st = t_type t /\ p_tok st = t /\ tok_fine t /\ (forall k, fetch st k = k (adv st)).
Proof.
  intro H. pose proof H as (E & _ & HF). inversion HF; subst. split; [unfold ty; rewrite E; reflexivity|]. split; auto. split; auto.
  intro k. eapply fetch_adv; eauto. discriminate.
Qed.
Lemma at_neq st ts T : at_ st ts -> t_type (cur ts) <> T -> tok_eqb (ty st) T = false.
Proof. intros H HN. apply tok_eqb_neq. rewrite (at_ty _ _ H). exact HN. Qed.
Lemma tokmatch_ok T st ts k : at_ st ts -> t_type (cur ts) = T -> tokmatch T st k = k.
Proof. intros H E. unfold tokmatch. rewrite (at_ty _ _ H), E, tok_eqb_refl. reflexivity. Qed.
Lemma spelled_int o z name t : bs name = opname o -> t = print_d z -> spelled (insn o z) (i1 name t).
Proof. intros E ->. apply spelled_i1; auto. Qed.
Lemma print_d_u z : 0 <= z -> print_u z = print_d z.
Proof. intro H. unfold print_d. destruct (z <? 0) eqn:E; auto. lia. Qed.
Lemma print_ud z : 0 <= z -> print_d z = print_u z.
Proof. intro. symmetry. apply print_d_u. auto. Qed.
Lemma spelled_num t : spelled (num_line t) (push_const [] t).
Proof. unfold num_line, push_const, dotted, has_dot. destruct (existsb (Z.eqb 46) t); apply spelled_i1; reflexivity. Qed.
Lemma num_plain t : plain_line (num_line t). Proof. unfold num_line. destruct (dotted t); exact I. Qed.
Lemma to_str P FN st ts g us s p g' : at_ st ts -> PS P FN st g us -> chars_ok s -> addstr g s = (p, g') -> fits g' ->
  exists d', string_add (p_strs st) s = (d', p) /\ to P FN st (set_strs st d') ts [] g' us /\ 0 <= p < 65535.
Proof.
  intros H1 H2 H3 H4 H5. destruct (PS_string _ _ _ _ _ _ _ _ H2 H3 H4 H5) as (d' & A & B & C). exists d'. split; auto. split; auto.
  split; [eapply at_same; eauto|]. split; auto. apply app_nil_code.
Qed.
(** [to] through a chain of steps. *)
Lemma to_refl P FN st ts g us : at_ st ts -> PS P FN st g us -> to P FN st st ts [] g us.
Proof. intros. split; auto. split; auto. apply app_nil_code. Qed.

Section Ops.
Variable strtof : list Z -> option Z.
Notation ok_e := (ok_e strtof). Notation ok_es := (ok_es strtof). Notation ok_f := (ok_f strtof).
Notation claim := (claim strtof). Notation claim_e := (claim_e strtof).

Lemma cl_not t lim ts e : t_type t = TOK_LNOT -> claim 1 lim ts e -> claim 1 lim (t :: ts) (E_un U_not e).
Proof.
  intros HT H P FN us sc g st rest code g' K1 K2 K3 K4 K5 K6 K7 K8. cbn [Source.ok_e gen_e app] in *. gens. inversion K7; subst.
  destruct (at_head _ _ _ K2) as (HTy & _ & _ & HF). pose proof (to_adv _ _ _ _ _ _ _ K2 K5) as HA.
  destruct (H P FN us sc g (adv st) rest l g') as (st1 & i & HP & H1); eauto with pg.
  exists (emit st1 (i0 "lnot")), (0, false). split.
  - destruct HP as (n & E). apply parses_S with (n := n). cbn [nt_of Parser.body]. rewrite HTy, HT. cbn [tok_eqb]. rewrite HF. cbn [nt_of] in E. rewrite E. reflexivity.
  - eapply to_after; [apply HA| |reflexivity]. eapply to_trans; [apply H1|]. apply to_emit; eauto with pg; [apply spelled_op|exact I].
Qed.
Lemma cl_bnot t lim ts e : t_type t = TOK_BNOT -> claim 11 lim ts e -> claim 11 lim (t :: ts) (E_un U_bnot e).
Proof.
  intros HT H P FN us sc g st rest code g' K1 K2 K3 K4 K5 K6 K7 K8. cbn [Source.ok_e gen_e app] in *. gens. inversion K7; subst.
  destruct (at_head _ _ _ K2) as (HTy & _ & _ & HF). pose proof (to_adv _ _ _ _ _ _ _ K2 K5) as HA.
  destruct (H P FN us sc g (adv st) rest l g') as (st1 & i & HP & H1); eauto with pg.
  exists (emit st1 (i0 "bnot")), (0, false). split.
  - destruct HP as (n & E). apply parses_S with (n := n). cbn [nt_of Parser.body]. rewrite HTy, HT. cbn [tok_eqb]. rewrite HF. cbn [nt_of] in E. rewrite E. reflexivity.
  - eapply to_after; [apply HA| |reflexivity]. eapply to_trans; [apply H1|]. apply to_emit; eauto with pg; [apply spelled_op|exact I].
Qed.
Lemma cl_nil t : t_type t = TOK_NIL -> claim 12 13 [t] E_nil.
Proof.
  intros HT P FN us sc g st rest code g' K1 K2 K3 K4 K5 K6 K7 K8. cbn [app] in *. inversion K7; subst.
  destruct (at_head _ _ _ K2) as (HTy & _ & _ & HF).
  assert (HA : to P FN st (emit st (i0 "pushnil")) (t :: rest) [ins I_PUSHNIL] g' us) by (apply to_emit; auto; [apply spelled_op|exact I]).
  pose proof (to_adv _ _ _ _ _ _ _ (to_at _ _ _ _ _ _ _ _ HA) (to_PS _ _ _ _ _ _ _ _ HA)) as HB.
  exists (adv (emit st (i0 "pushnil"))), (0, false). split.
  - apply parses_S with (n := O). cbn [nt_of Parser.body]. rewrite HTy, HT. rewrite (fetch_adv _ _ _ (to_at _ _ _ _ _ _ _ _ HA)) by discriminate. reflexivity.
  - eapply to_then; eauto.
Qed.
Lemma cl_num t : t_type t = TOK_CONST -> claim 12 13 [t] (E_num (t_value t)).
Proof.
  intros HT P FN us sc g st rest code g' K1 K2 K3 K4 K5 K6 K7 K8. cbn [app gen_e] in *. inversion K7; subst.
  destruct (at_head _ _ _ K2) as (HTy & HTk & _ & HF).
  assert (HA : to P FN st (emit st (push_const [] (t_value t))) (t :: rest) [num_line (t_value t)] g' us) by (apply to_emit; auto; [apply spelled_num|apply num_plain]).
  pose proof (to_adv _ _ _ _ _ _ _ (to_at _ _ _ _ _ _ _ _ HA) (to_PS _ _ _ _ _ _ _ _ HA)) as HB.
  exists (adv (emit st (push_const [] (t_value t)))), (0, false). split.
  - apply parses_S with (n := O). cbn [nt_of Parser.body]. rewrite HTy, HT, HTk. rewrite (fetch_adv _ _ _ (to_at _ _ _ _ _ _ _ _ HA)) by discriminate. reflexivity.
  - eapply to_then; eauto.
Qed.
Lemma cl_sign s t : t_type s = TOK_ADDSUB -> sign_text s -> t_type t = TOK_CONST -> claim 12 13 [s; t] (E_num (t_value s ++ t_value t)).
Proof.
  intros HT HS HT2 P FN us sc g st rest code g' K1 K2 K3 K4 K5 K6 K7 K8. cbn [app gen_e] in *. inversion K7; subst.
  destruct (at_head _ _ _ K2) as (HTy & HTk & _ & HF).
  pose proof (to_adv _ _ _ _ _ _ _ K2 K5) as HA0. destruct (at_head _ _ _ (to_at _ _ _ _ _ _ _ _ HA0)) as (HTy1 & HTk1 & _ & HF1).
  assert (ET : push_const (firstn 1 (t_value s)) (t_value t) = push_const [] (t_value s ++ t_value t)).
  { destruct HS as [-> | ->]; reflexivity. }
  assert (HA : to P FN (adv st) (emit (adv st) (push_const [] (t_value s ++ t_value t))) (t :: rest) [num_line (t_value s ++ t_value t)] g' us).
  { apply to_emit; eauto with pg; [apply spelled_num|apply num_plain]. }
  pose proof (to_adv _ _ _ _ _ _ _ (to_at _ _ _ _ _ _ _ _ HA) (to_PS _ _ _ _ _ _ _ _ HA)) as HB.
  exists (adv (emit (adv st) (push_const [] (t_value s ++ t_value t)))), (0, false). split.
  - apply parses_S with (n := O). cbn [nt_of Parser.body]. rewrite HTy, HT, HTk, HF, HTy1, HT2, HTk1. cbn [tok_eqb]. rewrite ET.
    rewrite (fetch_adv _ _ _ (to_at _ _ _ _ _ _ _ _ HA)) by discriminate. reflexivity.
  - eapply to_after; [apply HA0| |reflexivity]. eapply to_then; eauto.
Qed.
Lemma cl_neg s lim t ts e : t_type s = TOK_ADDSUB -> t_value s = bs "-" -> t_type t <> TOK_CONST -> claim 8 lim (t :: ts) e ->
  claim 12 (Nat.min lim 8) (s :: t :: ts) (E_un U_neg e).
Proof.
  intros HT HV HT2 H P FN us sc g st rest code g' K1 K2 K3 K4 K5 K6 K7 K8. cbn [Source.ok_e gen_e] in *. gens. inversion K7; subst.
  destruct (at_head _ _ _ K2) as (HTy & HTk & _ & HF). pose proof (to_adv _ _ _ _ _ _ _ K2 K5) as HA.
  destruct (H P FN us sc g (adv st) rest l g') as (st1 & i & HP & H1); eauto with pg; try lia.
  exists (emit st1 (i0 "unm")), (0, false). split.
  - destruct HP as (n & E). apply parses_S with (n := n). cbn [nt_of Parser.body]. rewrite HTy, HT, HTk, HF.
    rewrite (at_neq _ _ _ (to_at _ _ _ _ _ _ _ _ HA)) by exact HT2. cbn [nt_of] in E. rewrite E. cbn [pbind]. rewrite HV. reflexivity.
  - eapply to_after; [apply HA| |reflexivity]. eapply to_trans; [apply H1|]. apply to_emit; eauto with pg; [apply spelled_op|exact I].
Qed.
Lemma cl_pos s lim t ts e : t_type s = TOK_ADDSUB -> t_value s = bs "+" -> t_type t <> TOK_CONST -> claim 8 lim (t :: ts) e ->
  claim 12 (Nat.min lim 8) (s :: t :: ts) e.
Proof.
  intros HT HV HT2 H P FN us sc g st rest code g' K1 K2 K3 K4 K5 K6 K7 K8.
  destruct (at_head _ _ _ K2) as (HTy & HTk & _ & HF). pose proof (to_adv _ _ _ _ _ _ _ K2 K5) as HA.
  destruct (H P FN us sc g (adv st) rest code g') as (st1 & i & HP & H1); eauto with pg; try lia.
  exists st1, (0, false). split.
  - destruct HP as (n & E). apply parses_S with (n := n). cbn [nt_of Parser.body]. rewrite HTy, HT, HTk, HF.
    rewrite (at_neq _ _ _ (to_at _ _ _ _ _ _ _ _ HA)) by exact HT2. cbn [nt_of] in E. rewrite E. cbn [pbind]. rewrite HV. reflexivity.
  - eapply to_after; [apply HA|apply H1|reflexivity].
Qed.
Lemma cl_str t : t_type t = TOK_STRING -> claim 12 13 [t] (E_str (t_value t)).
Proof.
  intros HT P FN us sc g st rest code g' K1 K2 K3 K4 K5 K6 K7 K8. cbn [app gen_e] in *. gens. inversion K7; subst.
  destruct (at_head _ _ _ K2) as (HTy & HTk & (_ & _ & _ & HCh) & HF).
  destruct (to_str _ _ _ _ _ _ _ _ _ K2 K5 HCh Heqp K8) as (d & E1 & H1 & HR).
  assert (HA : to P FN (set_strs st d) (emit (set_strs st d) (i1 "pushs" (print_u z))) (t :: rest) [insn I_PUSHS z] g' us).
  { apply to_emit; eauto with pg; [apply spelled_int; [reflexivity|apply print_d_u; lia]|exact I]. }
  pose proof (to_adv _ _ _ _ _ _ _ (to_at _ _ _ _ _ _ _ _ HA) (to_PS _ _ _ _ _ _ _ _ HA)) as HB.
  eexists _, (0, false). split.
  - apply parses_S with (n := O). cbn [nt_of Parser.body]. rewrite HTy, HT, HTk, E1.
    rewrite (fetch_adv _ _ _ (to_at _ _ _ _ _ _ _ _ HA)) by discriminate. reflexivity.
  - eapply to_after; [apply H1| |reflexivity]. eapply to_then; eauto.
Qed.
Lemma cl_paren o lim ts c e : t_type o = TOK_PAROPEN -> (8 <= lim)%nat -> claim 1 lim ts e -> t_type c = TOK_PARCLOSE -> claim 12 13 (o :: ts ++ [c]) e.
Proof.
  intros HT HL H HT2 P FN us sc g st rest code g' K1 K2 K3 K4 K5 K6 K7 K8. cbn [app] in K2. rewrite <- app_assoc in K2. cbn [app] in K2.
  destruct (at_head _ _ _ K2) as (HTy & HTk & _ & HF). pose proof (to_adv _ _ _ _ _ _ _ K2 K5) as HA.
  destruct (H P FN us sc g (adv st) (c :: rest) code g') as (st1 & i & HP & H1); eauto with pg; try (unfold next_lv; cbn [cur hd]; rewrite HT2; cbn; lia).
  pose proof (to_adv _ _ _ _ _ _ _ (to_at _ _ _ _ _ _ _ _ H1) (to_PS _ _ _ _ _ _ _ _ H1)) as HB.
  exists (adv st1), (0, false). split.
  - destruct HP as (n & E). apply parses_S with (n := n). cbn [nt_of Parser.body]. rewrite HTy, HT, HF. cbn [nt_of] in E. rewrite E. cbn [pbind].
    rewrite (tokmatch_ok _ _ _ _ (to_at _ _ _ _ _ _ _ _ H1)) by exact HT2. rewrite (fetch_adv _ _ _ (to_at _ _ _ _ _ _ _ _ H1)) by discriminate. reflexivity.
  - eapply to_after; [apply HA| |reflexivity]. eapply to_then; eauto.
Qed.

(** ** Arguments *)
Definition claim_a (ts : list token) (l : exprs) : Prop :=
  forall n P FN us sc g st rest code g',
    ok_es sc l = true -> at_ st (ts ++ rest) -> t_type (cur rest) = TOK_PARCLOSE -> PS P FN st g us -> scope_ok us sc ->
    gen_es sc l g = (code, g') -> fits g' ->
    exists st1 i1 st', parses N_condition st (st1, i1) /\ parses (N_condargs (n + 1)) st1 (st', (n + count l, false)) /\ to P FN st st' rest code g' us.
Lemma cl_arg1 lim ts e : (8 <= lim)%nat -> claim 1 lim ts e -> claim_a ts (Es_cons e Es_nil).
Proof.
  intros HL H n P FN us sc g st rest code g' K1 K2 K3 K5 K6 K7 K8. cbn [Source.ok_es gen_es] in *. gens. inversion K7; subst. rewrite andb_true_r in K1.
  destruct (H P FN us sc g st rest l g') as (st1 & i & HP & H1); auto; try (unfold next_lv; rewrite K3; cbn; lia).
  exists st1, i, st1. split; auto. split.
  - apply parses_S with (n := O). cbn [Parser.body count]. rewrite (at_neq _ _ _ (to_at _ _ _ _ _ _ _ _ H1)) by (rewrite K3; discriminate). reflexivity.
  - rewrite app_nil_r. auto.
Qed.
Lemma cl_arg lim ts e s tr l : (8 <= lim)%nat -> claim 1 lim ts e -> t_type s = TOK_LISTSEP -> claim_a tr l -> claim_a (ts ++ s :: tr) (Es_cons e l).
Proof.
  intros HL H HT H2 n P FN us sc g st rest code g' K1 K2 K3 K5 K6 K7 K8. cbn [Source.ok_es gen_es] in *. gens. inversion K7; subst.
  apply andb_true_iff in K1 as [K1 K1']. rewrite at_shift in K2.
  destruct (H P FN us sc g st (s :: tr ++ rest) l0 g0) as (st1 & i & HP & H1); auto; try (unfold next_lv; cbn [cur hd]; rewrite HT; cbn; lia).
  { eapply fits_ext; eauto using ext_es. }
  pose proof (to_adv _ _ _ _ _ _ _ (to_at _ _ _ _ _ _ _ _ H1) (to_PS _ _ _ _ _ _ _ _ H1)) as HA.
  destruct (H2 (n + 1) P FN us sc g0 (adv st1) rest l1 g') as (st2 & i2 & st3 & HP2 & HP3 & H3); eauto with pg.
  exists st1, i, st3. split; auto. split.
  - destruct (parses_join _ _ _ _ _ _ HP2 HP3) as (m & E2 & E3). apply parses_S with (n := m). cbn [Parser.body count].
    destruct (at_head _ _ _ (to_at _ _ _ _ _ _ _ _ H1)) as (HTy & _ & _ & HF). rewrite HTy, HT, HF. cbn [tok_eqb]. rewrite E2. cbn [pbind].
    rewrite E3. replace (n + (count l + 1)) with (n + 1 + count l) by lia. reflexivity.
  - eapply to_trans; [apply H1|]. eapply to_after; [apply HA|apply H3|reflexivity].
Qed.

(** ** Entries of tables *)
Definition entry (rec : nt -> pst -> pres) (st : pst) : pres :=
  table_key st (fun st => fetch st (fun st => tokmatch TOK_ASSIGN st (fetch st (fun st =>
  st <~ rec N_expression st ;; rec N_tabloop (emit st (i0 "tput")))))).
Definition claim_f (ts : list token) (l : fields) : Prop :=
  forall P FN us sc g st c rest code g',
    ok_f sc l = true -> at_ st (tl ts ++ c :: rest) -> t_type c = TOK_BLOCKCLOSE -> PS P FN st g us -> scope_ok us sc ->
    gen_f sc l g = (code, g') -> fits g' ->
    exists n st' code', code = ins I_DUP :: code' /\ (forall k, (n <= k)%nat -> entry (parse k) st = Ok (Some (st', (0, false)))) /\ to P FN st st' rest code' g' us.
Lemma key_ok tk k P FN us sc g st ts code g' : spells_key tk k -> at_ st (tk :: ts) -> PS P FN st g us -> gen_e sc k false g = (code, g') -> fits g' ->
  exists st1, (forall K, table_key st K = K st1) /\ to P FN st st1 (tk :: ts) code g' us.
Proof.
  intros HK HA HP HG HF. destruct (at_head _ _ _ HA) as (HTy & HTk & (_ & _ & _ & HCh) & _). unfold table_key. rewrite HTy, HTk.
  destruct HK as [t HT|t HT]; rewrite HT; cbn [gen_e] in HG.
  - gens. inversion HG; subst. destruct (to_str _ _ _ _ _ _ _ _ _ HA HP HCh Heqp HF) as (d & E1 & H1 & HR). rewrite E1. eexists. split; [reflexivity|].
    eapply to_after; [apply H1| |reflexivity]. apply to_emit; eauto with pg; [apply spelled_int; [reflexivity|apply print_d_u; lia]|exact I].
  - inversion HG; subst. eexists. split; [reflexivity|]. apply to_emit; auto; [apply spelled_num|apply num_plain].
Qed.
(** The part of an entry before the next one. *)
Lemma entry_ok d tk k a lim ts e P FN us sc g st rest l1 g1 l2 g2 :
  spells_key tk k -> t_type a = TOK_ASSIGN -> (8 <= lim)%nat -> claim 4 lim ts e -> ok_e sc e = true -> at_ st (tl (d :: tk :: a :: ts) ++ rest) ->
  (next_lv rest = 0)%nat -> PS P FN st g us -> scope_ok us sc -> gen_e sc k false g = (l1, g1) -> gen_e sc e false g1 = (l2, g2) -> fits g2 ->
  exists st', to P FN st st' rest (l1 ++ l2 ++ [ins I_TPUT]) g2 us /\
    exists n, forall k, (n <= k)%nat -> entry (parse k) st = parse k N_tabloop st'.
Proof.
  intros HK HT HL H K1 K2 K3 K5 K6 G1 G2 K8. cbn [tl app] in K2.
  destruct (key_ok _ _ _ _ _ _ _ _ _ _ _ HK K2 K5 G1) as (st1 & E1 & H1). { eapply fits_ext; eauto using ext_e. }
  pose proof (to_adv _ _ _ _ _ _ _ (to_at _ _ _ _ _ _ _ _ H1) (to_PS _ _ _ _ _ _ _ _ H1)) as HA.
  pose proof (to_adv _ _ _ _ _ _ _ (to_at _ _ _ _ _ _ _ _ HA) (to_PS _ _ _ _ _ _ _ _ HA)) as HB.
  destruct (H P FN us sc g1 (adv (adv st1)) rest l2 g2) as (st2 & i & HP & H2); eauto with pg; try lia.
  exists (emit st2 (i0 "tput")). split.
  - eapply to_trans; [apply H1|]. eapply to_after; [apply HA| |reflexivity]. eapply to_after; [apply HB| |reflexivity].
    eapply to_trans; [apply H2|]. apply to_emit; eauto with pg; [apply spelled_op|exact I].
  - destruct HP as (n & E). exists n. intros m Hm. unfold entry. rewrite E1. rewrite (fetch_adv _ _ _ (to_at _ _ _ _ _ _ _ _ H1)) by discriminate.
    rewrite (tokmatch_ok _ _ _ _ (to_at _ _ _ _ _ _ _ _ HA)) by exact HT. rewrite (fetch_adv _ _ _ (to_at _ _ _ _ _ _ _ _ HA)) by discriminate.
    cbn [nt_of] in E. rewrite (parses_at _ _ _ _ E _ Hm). reflexivity.
Qed.
Lemma tabloop_end P FN us g st c rest : at_ st (c :: rest) -> t_type c = TOK_BLOCKCLOSE -> PS P FN st g us ->
  parses N_tabloop st (adv st, (0, false)) /\ to P FN st (adv st) rest [] g us.
Proof.
  intros HA HT HP. split; [|eapply to_adv; eauto]. apply parses_S with (n := O). cbn [Parser.body].
  rewrite (at_neq _ _ _ HA) by (cbn [cur hd]; congruence). rewrite (tokmatch_ok _ _ _ _ HA) by exact HT. rewrite (fetch_adv _ _ _ HA) by discriminate. reflexivity.
Qed.
Lemma cl_field1 d tk k a lim ts e : t_type d = TOK_DOT -> spells_key tk k -> t_type a = TOK_ASSIGN -> (8 <= lim)%nat -> claim 4 lim ts e ->
  claim_f (d :: tk :: a :: ts) (F_cons k e F_nil).
Proof.
  intros HD HK HT HL H P FN us sc g st c rest code g' K1 K2 K3 K5 K6 K7 K8. cbn [Source.ok_f gen_f] in *. gens. inversion K7; subst.
  apply andb_true_iff in K1 as [K1 _]. apply andb_true_iff in K1 as [_ K1].
  destruct (entry_ok d tk k a lim ts e P FN us sc g st (c :: rest) l g0 l0 g') as (st1 & H1 & n & E1); auto.
  { unfold next_lv. cbn [cur hd]. rewrite K3. reflexivity. }
  destruct (tabloop_end P FN us g' st1 c rest) as ((m & E2) & H2); eauto with pg.
  exists (Nat.max n m), (adv st1). eexists. split; [reflexivity|]. split.
  - intros j Hj. rewrite E1 by lia. eapply parses_at; eauto. lia.
  - eapply to_then; [apply H1|apply H2|reflexivity].
Qed.
Lemma cl_field d tk k a lim ts e s tr l : t_type d = TOK_DOT -> spells_key tk k -> t_type a = TOK_ASSIGN -> (8 <= lim)%nat -> claim 4 lim ts e ->
  t_type s = TOK_LISTSEP -> (exists d r, tr = d :: r /\ t_type d = TOK_DOT) -> claim_f tr l -> claim_f (d :: tk :: a :: ts ++ s :: tr) (F_cons k e l).
Proof.
  intros HD HK HT HL H HS (d2 & tr2 & -> & HD2) H2 P FN us sc g st c rest code g' K1 K2 K3 K5 K6 K7 K8. cbn [Source.ok_f gen_f] in *. gens. inversion K7; subst.
  apply andb_true_iff in K1 as [K1 K1']. apply andb_true_iff in K1 as [_ K1].
  destruct (entry_ok d tk k a lim ts e P FN us sc g st (s :: d2 :: tr2 ++ c :: rest) l0 g0 l1 g1) as (st1 & H1 & n & E1); auto.
  { cbn [tl app] in *. rewrite at_shift in K2. exact K2. } { unfold next_lv. cbn [cur hd]. rewrite HS. reflexivity. } { eapply fits_ext; eauto using ext_f. }
  assert (HA : to P FN st1 (emit st1 (i0 "dup")) (s :: d2 :: tr2 ++ c :: rest) [ins I_DUP] g1 us).
  { apply to_emit; eauto with pg; [apply spelled_op|exact I]. }
  pose proof (to_adv _ _ _ _ _ _ _ (to_at _ _ _ _ _ _ _ _ HA) (to_PS _ _ _ _ _ _ _ _ HA)) as HB.
  pose proof (to_adv _ _ _ _ _ _ _ (to_at _ _ _ _ _ _ _ _ HB) (to_PS _ _ _ _ _ _ _ _ HB)) as HC.
  destruct (H2 P FN us sc g1 _ c rest l2 g' K1' (to_at _ _ _ _ _ _ _ _ HC)) as (m & st2 & code' & EC & E2 & H3); eauto with pg.
  exists (S (Nat.max n m)), st2. eexists. split; [reflexivity|]. split.
  - intros j Hj. destruct j as [|j]; [lia|]. rewrite E1 by lia. cbn [parse Parser.body].
    destruct (at_head _ _ _ (to_at _ _ _ _ _ _ _ _ H1)) as (HTy & _). rewrite HTy, HS. cbn [tok_eqb].
    rewrite (fetch_adv _ _ _ (to_at _ _ _ _ _ _ _ _ HA)) by discriminate. rewrite (tokmatch_ok _ _ _ _ (to_at _ _ _ _ _ _ _ _ HB)) by exact HD2.
    rewrite (fetch_adv _ _ _ (to_at _ _ _ _ _ _ _ _ HB)) by discriminate. specialize (E2 j). unfold entry in E2. apply E2. lia.
  - rewrite EC. replace (l0 ++ l1 ++ ins I_TPUT :: ins I_DUP :: code') with ((l0 ++ l1 ++ [ins I_TPUT]) ++ [ins I_DUP] ++ code') by (rewrite <- !app_assoc; reflexivity).
    eapply to_trans; [apply H1|]. eapply to_trans; [apply HA|]. eapply to_after; [apply HB| |reflexivity]. eapply to_after; [apply HC|apply H3|reflexivity].
Qed.
Lemma cl_table0 o c : t_type o = TOK_BLOCKOPEN -> t_type c = TOK_BLOCKCLOSE -> claim 4 13 [o; c] (E_table F_nil).
Proof.
  intros HT HT2 P FN us sc g st rest code g' K1 K2 K3 K4 K5 K6 K7 K8. cbn [app gen_e gen_f] in *. inversion K7; subst.
  destruct (at_head _ _ _ K2) as (HTy & HTk & _ & HF). pose proof (to_adv _ _ _ _ _ _ _ K2 K5) as HA.
  destruct (at_head _ _ _ (to_at _ _ _ _ _ _ _ _ HA)) as (HTy1 & _).
  assert (HB : to P FN (adv st) (emit (adv st) (i0 "pusht")) (c :: rest) [ins I_PUSHT] g' us) by (apply to_emit; eauto with pg; [apply spelled_op|exact I]).
  destruct (tabloop_end P FN us g' _ c rest (to_at _ _ _ _ _ _ _ _ HB) HT2 (to_PS _ _ _ _ _ _ _ _ HB)) as ((m & E2) & H2).
  eexists _, (0, false). split.
  - apply parses_S with (n := m). cbn [nt_of Parser.body]. rewrite HTy, HT, HF. cbn [tok_eqb]. rewrite HTy1, HT2. cbn [tok_eqb orb].
    replace (ty (emit (adv st) (i0 "pusht"))) with TOK_BLOCKCLOSE by (symmetry; transitivity (ty (adv st)); [reflexivity|congruence]). cbn [tok_eqb]. exact E2.
  - eapply to_after; [apply HA| |reflexivity]. eapply to_then; [apply HB|apply H2|reflexivity].
Qed.
Lemma cl_table o ts l c : t_type o = TOK_BLOCKOPEN -> claim_f ts l -> (exists d r, ts = d :: r /\ t_type d = TOK_DOT) -> t_type c = TOK_BLOCKCLOSE ->
  claim 4 13 (o :: ts ++ [c]) (E_table l).
Proof.
  intros HT H (d & tr & -> & HD) HT2 P FN us sc g st rest code g' K1 K2 K3 K4 K5 K6 K7 K8. cbn [app Source.ok_e gen_e] in *. gens. inversion K7; subst.
  rewrite <- app_assoc in K2. cbn [app] in K2.
  destruct (at_head _ _ _ K2) as (HTy & HTk & _ & HF). pose proof (to_adv _ _ _ _ _ _ _ K2 K5) as HA.
  destruct (at_head _ _ _ (to_at _ _ _ _ _ _ _ _ HA)) as (HTy1 & _).
  assert (HB : to P FN (adv st) (emit (adv st) (i0 "pusht")) (d :: tr ++ c :: rest) [ins I_PUSHT] g us) by (apply to_emit; eauto with pg; [apply spelled_op|exact I]).
  assert (HC : to P FN (emit (adv st) (i0 "pusht")) (emit (emit (adv st) (i0 "pusht")) (i0 "dup")) (d :: tr ++ c :: rest) [ins I_DUP] g us).
  { apply to_emit; eauto with pg; [apply spelled_op|exact I]. }
  pose proof (to_adv _ _ _ _ _ _ _ (to_at _ _ _ _ _ _ _ _ HC) (to_PS _ _ _ _ _ _ _ _ HC)) as HD1.
  destruct (H P FN us sc g _ c rest l0 g' K1 (to_at _ _ _ _ _ _ _ _ HD1)) as (m & st2 & code' & EC & E2 & H3); eauto with pg.
  exists st2, (0, false). split.
  - apply parses_S with (n := m). cbn [nt_of Parser.body]. rewrite HTy, HT, HF. cbn [tok_eqb]. rewrite HTy1, HD. cbn [tok_eqb orb].
    replace (ty (emit (adv st) (i0 "pusht"))) with TOK_DOT by (symmetry; transitivity (ty (adv st)); [reflexivity|congruence]). cbn [tok_eqb].
    rewrite (fetch_adv _ _ _ (to_at _ _ _ _ _ _ _ _ HC)) by discriminate. specialize (E2 m). unfold entry in E2. apply E2. lia.
  - subst l0. change (ins I_PUSHT :: ins I_DUP :: code') with ([ins I_PUSHT] ++ [ins I_DUP] ++ code').
    eapply to_after; [apply HA| |reflexivity]. eapply to_trans; [apply HB|]. eapply to_trans; [apply HC|]. eapply to_after; [apply HD1|apply H3|reflexivity].
Qed.
End Ops.
