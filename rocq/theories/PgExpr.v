(** The parser emits the code of Gen.v: expressions. *)
From Coq Require Import String.
From Verif Require Import Base ListLemmas Dict DictSpec DictProofs PDict PDictKeys Strman StrmanProofs Text TextProofs Lex Instr Asm AsmSpec
  Parser ParserFuel Source Gen GenExt PgBase PgSym.
Local Open Scope Z_scope. Local Open Scope list_scope.

Ltac Zify.zify_post_hook ::= idtac.

Scheme sp_m := Minimality for spells Sort Prop with spr_m := Minimality for spells_ref Sort Prop with spa_m := Minimality for spells_args Sort Prop
  with spf_m := Minimality for spells_fields Sort Prop with spc_m := Minimality for spells_cmd Sort Prop with sps_m := Minimality for spells_stat Sort Prop
  with spb_m := Minimality for spells_body Sort Prop with spk_m := Minimality for spells_block Sort Prop with spss_m := Minimality for spells_stats Sort Prop.
Combined Scheme sp_all from sp_m, spr_m, spa_m, spf_m, spc_m, sps_m, spb_m, spk_m, spss_m.

(** ** First tokens *)
Definition starts (lv : nat) (t : toktype) : Prop :=
  (t = TOK_LNOT -> (lv <= 1)%nat) /\ (t = TOK_BLOCKOPEN -> (lv <= 4)%nat) /\ (t = TOK_BNOT -> (lv <= 11)%nat) /\
  In t [TOK_LNOT; TOK_BLOCKOPEN; TOK_BNOT; TOK_NIL; TOK_CONST; TOK_ADDSUB; TOK_STRING; TOK_PAROPEN; TOK_ID; TOK_FUN].
Definition first_ok (lv : nat) (ts : list token) : Prop := exists t r, ts = t :: r /\ starts lv (t_type t).
Definition starts_stat (t : toktype) : Prop := In t [TOK_ID; TOK_RETURN; TOK_VAR; TOK_IF; TOK_WHILE; TOK_FOR; TOK_FUN].
Definition first_stat (ts : list token) : Prop := exists t r, ts = t :: r /\ starts_stat (t_type t).
Lemma first_app lv ts r : first_ok lv ts -> first_ok lv (ts ++ r).
Proof. intros (t & l & -> & H). exists t, (l ++ r). auto. Qed.
Lemma starts_up lv lv' t : starts lv' t -> (lv <= lv')%nat -> starts lv t.
Proof. intros (A & B & C & D) HL. repeat split; auto; intro E; [apply A in E|apply B in E|apply C in E]; lia. Qed.
Lemma first_up lv lv' ts : first_ok lv' ts -> (lv <= lv')%nat -> first_ok lv ts.
Proof. intros (t & r & E & H) HL. exists t, r. split; auto. eapply starts_up; eauto. Qed.
Lemma starts_plain lv t : (lv <= 12)%nat -> In t [TOK_NIL; TOK_CONST; TOK_ADDSUB; TOK_STRING; TOK_PAROPEN; TOK_ID; TOK_FUN] -> starts lv t.
Proof. intros HL H. cbn in H. repeat split; try (intro; subst; intuition discriminate). cbn. intuition. Qed.
Lemma first_plain t r : In (t_type t) [TOK_NIL; TOK_CONST; TOK_ADDSUB; TOK_STRING; TOK_PAROPEN; TOK_ID; TOK_FUN] -> first_ok 12 (t :: r).
Proof. intro H. exists t, r. split; auto. apply starts_plain; auto. Qed.

Lemma first_all :
  (forall lv lim ts e, spells lv lim ts e -> first_ok lv ts /\ (8 <= lim)%nat /\ (1 <= lv <= 12)%nat) /\
  (forall ts e, spells_ref ts e -> exists t r, ts = t :: r /\ t_type t = TOK_ID) /\
  (forall ts l, spells_args ts l -> first_ok 1 ts /\ l <> Es_nil) /\
  (forall ts l, spells_fields ts l -> exists d r, ts = d :: r /\ t_type d = TOK_DOT) /\
  (forall ts s, spells_cmd ts s -> exists t r, ts = t :: r /\ (t_type t = TOK_ID \/ t_type t = TOK_RETURN)) /\
  (forall ts f s, spells_stat ts f s -> first_stat ts) /\
  (forall ts f b, spells_body ts f b -> exists t r, ts = t :: r /\ (t_type t = TOK_BLOCKOPEN \/ starts_stat (t_type t))) /\
  (forall ts f b, spells_block ts f b -> (ts = [] /\ b = Ss_nil) \/ first_stat ts) /\
  (forall ts f b, spells_stats ts f b -> first_stat ts).
Proof.
  apply sp_all; intros;
    repeat match goal with H : _ /\ _ |- _ => destruct H end;
    try (eexists; eexists; split; [reflexivity|]; unfold starts_stat; match goal with HT : t_type ?t = _ |- context [t_type ?t] => rewrite HT; cbn; tauto end);
    try (split; [apply first_plain; match goal with HT : t_type ?t = _ |- In (t_type ?t) _ => rewrite HT; cbn; tauto end|lia]).
  - split; [apply first_app; auto|lia].
  - split; [apply first_app; eapply first_up; [eassumption|lia]|lia].
  - split; [apply first_app; eapply first_up; [eassumption|lia]|lia].
  - split; [eapply first_up; [eassumption|lia]|lia].
  - split; [|lia]. exists t, ts. split; auto. rewrite H. repeat split; try discriminate; cbn; auto.
  - split; [|lia]. exists t, ts. split; auto. rewrite H. repeat split; try discriminate; cbn; auto.
  - split; [|lia]. exists o, [c]. split; auto. rewrite H. repeat split; try discriminate; cbn; auto.
  - split; [|lia]. exists o, (ts ++ [c]). split; auto. rewrite H. repeat split; try discriminate; cbn; auto.
  - destruct H0 as (t & r & -> & HT). split; [apply first_plain; rewrite HT; cbn; tauto|lia].
  - destruct H0 as (t & r & -> & HT). exists t, (r ++ [d; i]). auto.
  - destruct H0 as (t & r & -> & HT). exists t, (r ++ o :: tk ++ [c]). auto.
  - destruct H0 as (t & r & -> & HT). exists t, (r ++ [o; c]). auto.
  - destruct H0 as (t & r & -> & HT). exists t, (r ++ o :: ta ++ [c]). auto.
  - split; [auto|discriminate].
  - split; [apply first_app; auto|discriminate].
  - destruct H0 as (t & r & -> & HT). exists t, (r ++ a :: ts). auto.
  - destruct H0 as (t & r & -> & HT). exists t, r. auto.
  - destruct H0 as (t & r & -> & [HT|HT]); exists t, r; unfold starts_stat; rewrite HT; cbn; auto.
  - destruct H0 as (t & r & -> & HT). exists t, r. auto.
  - left; auto.
  - right; auto.
  - auto.
  - destruct H0 as (t & r & -> & HT). exists t, (r ++ tr). auto.
Qed.

(** ** Steps *)
Definition to P FN (st st' : pst) (rest : list token) (code : list aline) (g' : gst) (us : list symtab) : Prop :=
  at_ st' rest /\ PS P FN st' g' us /\ adds st st' code.
Lemma to_trans P FN st st1 st2 r1 r2 c1 c2 g1 g2 us us2 :
  to P FN st st1 r1 c1 g1 us -> to P FN st1 st2 r2 c2 g2 us2 -> to P FN st st2 r2 (c1 ++ c2) g2 us2.
Proof. intros (_ & _ & A) (B & C & D). split; [|split]; auto. eapply appends_app; eauto. Qed.
Lemma to_adv P FN st t ts g us : at_ st (t :: ts) -> PS P FN st g us -> to P FN st (adv st) ts [] g us.
Proof.
  intros H1 H2. split; [eapply at_adv; eauto|]. split; [apply PS_adv; auto|]. unfold adds. rewrite adv_code. apply app_nil_code.
Qed.
Lemma to_emit P FN st ts l txt g us : at_ st ts -> PS P FN st g us -> spelled l txt -> plain_line l -> to P FN st (emit st txt) ts [l] g us.
Proof. intros H1 H2 H3 H4. split; [apply emit_at; auto|]. split; [apply PS_emit; auto|]. eapply emit_adds; eauto. Qed.
Lemma to_after P FN st st1 st2 r1 r2 c c1 g1 g2 us us2 :
  to P FN st st1 r1 c1 g1 us -> to P FN st1 st2 r2 c g2 us2 -> c1 = [] -> to P FN st st2 r2 c g2 us2.
Proof. intros A B ->. apply (to_trans _ _ _ _ _ _ _ _ _ _ _ _ _ A B). Qed.
Lemma to_then P FN st st1 st2 r1 r2 c c1 g1 g2 us us2 :
  to P FN st st1 r1 c g1 us -> to P FN st1 st2 r2 c1 g2 us2 -> c1 = [] -> to P FN st st2 r2 c g2 us2.
Proof. intros A B ->. rewrite <- (app_nil_r c). apply (to_trans _ _ _ _ _ _ _ _ _ _ _ _ _ A B). Qed.
Lemma to_at P FN st st' rest code g' us : to P FN st st' rest code g' us -> at_ st' rest. Proof. intros (H & _). exact H. Qed.
Lemma to_PS P FN st st' rest code g' us : to P FN st st' rest code g' us -> PS P FN st' g' us. Proof. intros (_ & H & _). exact H. Qed.
#[export] Hint Resolve to_at to_PS : pg.

Definition nt_of (lv : nat) : nt :=
  match lv with
  | 1 | 2 => N_condition | 3 => N_comparison | 4 | 5 => N_expression | 6 => N_product | 7 => N_modulo | 8 => N_power
  | 9 => N_bitshift | 10 => N_bitandor | 11 => N_bitnot | _ => N_operand
  end%nat.
Definition loop_of (lv : nat) : nt :=
  match lv with 2 => N_condloop | 5 => N_addloop | 6 => N_mulloop | 7 => N_modloop | 9 => N_shiftloop | _ => N_bitloop end%nat.
Definition chainb (lv : nat) : bool := match lv with 2 | 5 | 6 | 7 | 9 | 10 => true | _ => false end%nat.
Lemma left_chain lv : left_assoc lv -> chainb lv = true.
Proof. unfold left_assoc. cbn. intuition; subst; auto. Qed.
Lemma chain_cases lv : chainb lv = true -> lv = 2%nat \/ lv = 5%nat \/ lv = 6%nat \/ lv = 7%nat \/ lv = 9%nat \/ lv = 10%nat.
Proof. intro H. do 11 (destruct lv as [|lv]; try discriminate H; auto 10). Qed.

Lemma neq_tok t T lv : (oplevel t < lv)%nat -> (lv <= oplevel T)%nat -> tok_eqb t T = false.
Proof. intros H1 H2. apply tok_eqb_neq. intros ->. lia. Qed.
Lemma loop_stop lv st : chainb lv = true -> (oplevel (ty st) < lv)%nat -> parses (loop_of lv) st (st, (0, false)).
Proof.
  intros HC HO. apply parses_S with (n := O).
  destruct (chain_cases _ HC) as [->|[->|[->|[->|[->| ->]]]]]; cbn [loop_of Parser.body]; unfold op_loop; erewrite neq_tok; eauto; reflexivity.
Qed.
Lemma loop_enter lv st ts st1 i r : chainb lv = true -> at_ st ts -> first_ok (S lv) ts -> parses (nt_of (S lv)) st (st1, i) -> parses (loop_of lv) st1 r -> parses (nt_of lv) st r.
Proof.
  intros HC HA (t & ts' & -> & HS) H1 H2. apply at_ty in HA. cbn [cur hd] in HA. destruct (parses_join _ _ _ _ _ _ H1 H2) as (n & E1 & E2).
  apply parses_S with (n := n).
  assert (HL : (lv = 2)%nat -> tok_eqb (ty st) TOK_LNOT = false).
  { intros ->. apply tok_eqb_neq. rewrite HA. intro E. apply HS in E. lia. }
  assert (HB : (lv = 5)%nat -> tok_eqb (ty st) TOK_BLOCKOPEN = false).
  { intros ->. apply tok_eqb_neq. rewrite HA. intro E. apply HS in E. lia. }
  destruct (chain_cases _ HC) as [->|[->|[->|[->|[->| ->]]]]]; cbn [loop_of nt_of Parser.body] in *; rewrite ?HL, ?HB by reflexivity; rewrite E1; cbn [pbind]; exact E2.
Qed.
Definition optxt (o : opcode) : list Z := TAB :: opname o.
Lemma spelled_op o : spelled (ins o) (optxt o).
Proof. intro d. reflexivity. Qed.
Lemma loop_step lv st o ts b st2 i r : chainb lv = true -> at_ st (o :: ts) -> infix o b -> oplevel (t_type o) = lv ->
  parses (nt_of (S lv)) (adv st) (st2, i) -> parses (loop_of lv) (emit st2 (optxt (bin_op b))) r -> parses (loop_of lv) st r.
Proof.
  intros HC HA HI HO H1 H2. pose proof (at_ty _ _ HA) as HT. pose proof HA as (HV & _). cbn [cur hd] in HT, HV.
  assert (EF : forall k, fetch st k = k (adv st)) by (intro k; eapply fetch_adv; eauto; discriminate).
  unfold infix in HI. set (tt := t_type o) in *. set (tv := t_value o) in *. assert (EV : t_value (p_tok st) = tv) by (rewrite HV; reflexivity).
  clearbody tt tv. clear HV HA o. destruct (parses_join _ _ _ _ _ _ H1 H2) as (n & E1 & E2). apply parses_S with (n := n).
  cbn [In infixes] in HI.
  repeat match type of HI with _ \/ _ => destruct HI as [HI|HI] end; try contradiction; revert HT EV HO; inversion HI; intros HT EV HO; cbn [oplevel] in HO; subst lv; try discriminate HC;
    cbn [loop_of nt_of Parser.body] in *; unfold op_loop; rewrite HT; cbn [tok_eqb]; rewrite EF, E1; cbn [pbind]; rewrite ?EV; subst b; exact E2.
Qed.

(** ** The claims *)
Section Claims.
Variable strtof : list Z -> option Z.
Notation ok_e := (ok_e strtof). Notation ok_es := (ok_es strtof). Notation ok_f := (ok_f strtof).
Notation ok_s := (ok_s strtof). Notation ok_b := (ok_b strtof). Notation ok_ss := (ok_ss strtof).
Definition fits (g : gst) : Prop := zlen (g_strs g) <= 65535.
Lemma fits_ext g g' : ext g g' -> fits g' -> fits g.
Proof. intros ((l & E) & _) H. unfold fits in *. rewrite E, zlen_app in H. pose proof (zlen_nonneg l). lia. Qed.
Definition next_lv (rest : list token) : nat := oplevel (t_type (cur rest)).

Definition claim_e (lv lim : nat) (ts : list token) (e : expr) : Prop :=
  forall P FN us sc g st rest code g',
    ok_e sc e = true -> at_ st (ts ++ rest) -> (next_lv rest < lv)%nat -> (next_lv rest < lim)%nat -> PS P FN st g us -> scope_ok us sc ->
    gen_e sc e false g = (code, g') -> fits g' ->
    exists st' i, parses (nt_of lv) st (st', i) /\ to P FN st st' rest code g' us.
Definition claim_c (lv lim : nat) (ts : list token) (e : expr) : Prop :=
  forall P FN us sc g st rest code g',
    ok_e sc e = true -> at_ st (ts ++ rest) -> (next_lv rest <= lv)%nat -> (next_lv rest < lim)%nat -> PS P FN st g us -> scope_ok us sc ->
    gen_e sc e false g = (code, g') -> fits g' ->
    exists st', to P FN st st' rest code g' us /\ forall r, parses (loop_of lv) st' r -> parses (nt_of lv) st r.
Definition claim (lv lim : nat) (ts : list token) (e : expr) : Prop := if chainb lv then claim_c lv lim ts e else claim_e lv lim ts e.
Lemma claim_plain lv lim ts e : claim lv lim ts e -> claim_e lv lim ts e.
Proof.
  unfold claim. destruct (chainb lv) eqn:EC; auto. intros H P FN us sc g st rest code g' H1 H2 H3 H4 H5 H6 H7 H8.
  destruct (H P FN us sc g st rest code g') as (st' & HT & HK); auto; [lia|]. exists st', (0, false). split; auto. apply HK. apply loop_stop; auto.
  rewrite (at_ty _ _ (to_at _ _ _ _ _ _ _ _ HT)). auto.
Qed.
Lemma ext_e e sc c g code g' : gen_e sc e c g = (code, g') -> ext g g'.
Proof. intro H. pose proof (proj1 gen_ext e sc c g) as HE. rewrite H in HE. exact HE. Qed.
Lemma ext_es e sc g code g' : gen_es sc e g = (code, g') -> ext g g'.
Proof. intro H. pose proof (proj1 (proj2 gen_ext) e sc g) as HE. rewrite H in HE. exact HE. Qed.
Lemma ext_f e sc g code g' : gen_f sc e g = (code, g') -> ext g g'.
Proof. intro H. pose proof (proj1 (proj2 (proj2 gen_ext)) e sc g) as HE. rewrite H in HE. exact HE. Qed.
Lemma ext_s e sc g code g' : gen_s sc e g = (code, g') -> ext g g'.
Proof. intro H. pose proof (proj1 (proj2 (proj2 (proj2 gen_ext))) e sc g) as HE. rewrite H in HE. exact HE. Qed.
Lemma ext_b e sc g code g' : gen_b sc e g = (code, g') -> ext g g'.
Proof. intro H. pose proof (proj1 (proj2 (proj2 (proj2 (proj2 gen_ext)))) e sc g) as HE. rewrite H in HE. exact HE. Qed.
Lemma ext_ss e sc g code g' : gen_ss sc e g = (code, g') -> ext g g'.
Proof. intro H. pose proof (proj2 (proj2 (proj2 (proj2 (proj2 gen_ext)))) e sc g) as HE. rewrite H in HE. exact HE. Qed.
Ltac gens :=
  repeat match goal with
  | H : context [gen_e ?sc ?e ?c ?g] |- _ => lazymatch type of H with gen_e _ _ _ _ = (_, _) => fail | _ => destruct (gen_e sc e c g) as [? ?] eqn:? end
  | H : context [gen_es ?sc ?e ?g] |- _ => lazymatch type of H with gen_es _ _ _ = (_, _) => fail | _ => destruct (gen_es sc e g) as [? ?] eqn:? end
  | H : context [gen_f ?sc ?e ?g] |- _ => lazymatch type of H with gen_f _ _ _ = (_, _) => fail | _ => destruct (gen_f sc e g) as [? ?] eqn:? end
  end.
Lemma at_shift {A} (a b c : list A) x : (a ++ x :: b) ++ c = a ++ x :: b ++ c.
Proof. rewrite <- app_assoc. reflexivity. Qed.

Lemma cl_chain lv lim1 lim2 ts1 o ts2 b e1 e2 : left_assoc lv -> claim lv lim1 ts1 e1 -> infix o b -> oplevel (t_type o) = lv -> (lv < lim1)%nat ->
  claim (S lv) lim2 ts2 e2 -> claim lv lim2 (ts1 ++ o :: ts2) (E_bin b e1 e2).
Proof.
  intros HL H1 HI HO HLim H2. pose proof (left_chain _ HL) as HC. unfold claim in H1 |- *. rewrite HC in *. apply claim_plain in H2.
  intros P FN us sc g st rest code g' K1 K2 K3 K4 K5 K6 K7 K8. cbn [Source.ok_e gen_e] in *. apply andb_true_iff in K1 as [K1 K1'].
  gens. inversion K7; subst. rewrite at_shift in K2.
  destruct (H1 P FN us sc g st (o :: ts2 ++ rest) l g0) as (st1 & HT1 & HK1); auto; try (unfold next_lv; cbn [cur hd]; lia).
  { eapply fits_ext; eauto using ext_e. }
  pose proof (to_adv _ _ _ _ _ _ _ (to_at _ _ _ _ _ _ _ _ HT1) (to_PS _ _ _ _ _ _ _ _ HT1)) as HA.
  destruct (H2 P FN us sc g0 (adv st1) rest l0 g') as (st2 & i & HP2 & HT2); eauto with pg; try lia.
  exists (emit st2 (optxt (bin_op b))). split.
  - eapply to_trans; [apply HT1|]. eapply to_after; [apply HA| |reflexivity]. eapply to_trans; [apply HT2|]. apply to_emit; eauto with pg; [apply spelled_op|exact I].
  - intros r Hr. apply HK1. eapply loop_step; eauto with pg.
Qed.
Lemma cl_cmp lim1 lim2 ts1 o ts2 b e1 e2 : (8 <= lim1)%nat -> claim 4 lim1 ts1 e1 -> infix o b -> oplevel (t_type o) = 3%nat -> claim 4 lim2 ts2 e2 ->
  claim 3 lim2 (ts1 ++ o :: ts2) (E_bin b e1 e2).
Proof.
  intros HLim H1 HI HO H2. apply claim_plain in H1, H2. unfold claim. cbn [chainb].
  intros P FN us sc g st rest code g' K1 K2 K3 K4 K5 K6 K7 K8. cbn [Source.ok_e gen_e] in *. apply andb_true_iff in K1 as [K1 K1'].
  gens. inversion K7; subst. rewrite at_shift in K2.
  destruct (H1 P FN us sc g st (o :: ts2 ++ rest) l g0) as (st1 & i1 & HP1 & HT1); auto; try (unfold next_lv; cbn [cur hd]; lia).
  { eapply fits_ext; eauto using ext_e. }
  pose proof (to_adv _ _ _ _ _ _ _ (to_at _ _ _ _ _ _ _ _ HT1) (to_PS _ _ _ _ _ _ _ _ HT1)) as HA.
  destruct (H2 P FN us sc g0 (adv st1) rest l0 g') as (st2 & i & HP2 & HT2); eauto with pg.
  exists (emit st2 (optxt (bin_op b))), (0, false). split.
  - cbn [nt_of] in *. destruct (parses_join _ _ _ _ _ _ HP1 HP2) as (n & E1 & E2). apply parses_S with (n := n). cbn [Parser.body]. rewrite E1. cbn [pbind].
    pose proof (to_at _ _ _ _ _ _ _ _ HT1) as HA1. pose proof (at_ty _ _ HA1) as HTy. cbn [cur hd] in HTy. pose proof HA1 as (HV & _). cbn [cur hd] in HV.
    rewrite (fetch_adv _ _ _ HA1) by discriminate. rewrite E2. cbn [pbind]. rewrite HTy, HV. clear - HI HO. unfold infix in HI.
    destruct (t_type o); try discriminate HO. cbn [tok_eqb]. cbn [In infixes] in HI.
    repeat match type of HI with _ \/ _ => destruct HI as [HI|HI] end; try contradiction; inversion HI; reflexivity.
  - eapply to_trans; [apply HT1|]. eapply to_after; [apply HA| |reflexivity]. eapply to_trans; [apply HT2|]. apply to_emit; eauto with pg; [apply spelled_op|exact I].
Qed.
Lemma cl_pow lim1 lim2 ts1 o ts2 b e1 e2 : claim 9 lim1 ts1 e1 -> infix o b -> oplevel (t_type o) = 8%nat -> (8 < lim1)%nat -> claim 8 lim2 ts2 e2 ->
  claim 8 lim2 (ts1 ++ o :: ts2) (E_bin b e1 e2).
Proof.
  intros H1 HI HO HLim H2. apply claim_plain in H1, H2. unfold claim. cbn [chainb].
  intros P FN us sc g st rest code g' K1 K2 K3 K4 K5 K6 K7 K8. cbn [Source.ok_e gen_e] in *. apply andb_true_iff in K1 as [K1 K1'].
  gens. inversion K7; subst. rewrite at_shift in K2.
  destruct (H1 P FN us sc g st (o :: ts2 ++ rest) l g0) as (st1 & i1 & HP1 & HT1); auto; try (unfold next_lv; cbn [cur hd]; lia).
  { eapply fits_ext; eauto using ext_e. }
  pose proof (to_adv _ _ _ _ _ _ _ (to_at _ _ _ _ _ _ _ _ HT1) (to_PS _ _ _ _ _ _ _ _ HT1)) as HA.
  destruct (H2 P FN us sc g0 (adv st1) rest l0 g') as (st2 & i & HP2 & HT2); eauto with pg.
  exists (emit st2 (optxt (bin_op b))), (0, false). split.
  - cbn [nt_of] in *. assert (HR : parses N_powerrest st1 (emit st2 (optxt (bin_op b)), (0, false))).
    { destruct HP2 as (n & E2). apply parses_S with (n := n). cbn [Parser.body].
      pose proof (to_at _ _ _ _ _ _ _ _ HT1) as HA1. pose proof (at_ty _ _ HA1) as HTy. cbn [cur hd] in HTy.
      rewrite (fetch_adv _ _ _ HA1) by discriminate. rewrite E2. cbn [pbind]. rewrite HTy. clear - HI HO. unfold infix in HI.
      destruct (t_type o); try discriminate HO. cbn [tok_eqb]. cbn [In infixes] in HI.
      repeat match type of HI with _ \/ _ => destruct HI as [HI|HI] end; try contradiction; inversion HI; reflexivity. }
    destruct (parses_join _ _ _ _ _ _ HP1 HR) as (n & E1 & E2). apply parses_S with (n := n). cbn [Parser.body]. rewrite E1. cbn [pbind]. exact E2.
  - eapply to_trans; [apply HT1|]. eapply to_after; [apply HA| |reflexivity]. eapply to_trans; [apply HT2|]. apply to_emit; eauto with pg; [apply spelled_op|exact I].
Qed.
Lemma cl_up lv lim ts e : (1 <= lv < 12)%nat -> first_ok (S lv) ts -> claim (S lv) lim ts e -> claim lv lim ts e.
Proof.
  intros HL HF H. apply claim_plain in H. unfold claim. destruct (chainb lv) eqn:EC.
  - intros P FN us sc g st rest code g' K1 K2 K3 K4 K5 K6 K7 K8.
    destruct (H P FN us sc g st rest code g') as (st' & i & HP & HT); auto; try lia. exists st'. split; auto. intros r Hr.
    eapply loop_enter; eauto. apply first_app; auto.
  - intros P FN us sc g st rest code g' K1 K2 K3 K4 K5 K6 K7 K8.
    destruct (H P FN us sc g st rest code g') as (st' & i & HP & HT); auto; try lia.
    pose proof (at_ty _ _ (to_at _ _ _ _ _ _ _ _ HT)) as HTy. fold (next_lv rest) in HTy.
    pose proof (at_ty _ _ K2) as HTy0.
    assert (HC : lv = 1%nat \/ lv = 3%nat \/ lv = 4%nat \/ lv = 8%nat \/ lv = 11%nat).
    { do 12 (destruct lv as [|lv]; [try discriminate; try lia|]); lia. }
    destruct HC as [->|[->|[->|[->| ->]]]]; cbn [nt_of] in *; try (exists st', i; split; auto; fail).
    + exists st', (0, false). split; auto. destruct HP as (n & E). apply parses_S with (n := n). cbn [Parser.body]. rewrite E. cbn [pbind].
      rewrite (neq_tok _ _ 3) by (rewrite ?HTy; auto). reflexivity.
    + exists st', (0, false). split; auto. assert (HR : parses N_powerrest st' (st', (0, false))).
      { apply parses_S with (n := O). cbn [Parser.body]. rewrite (neq_tok _ _ 8) by (rewrite ?HTy; auto). reflexivity. }
      destruct (parses_join _ _ _ _ _ _ HP HR) as (n & E1 & E2). apply parses_S with (n := n). cbn [Parser.body]. rewrite E1. cbn [pbind]. exact E2.
    + exists st', i. split; auto. destruct HP as (n & E). apply parses_S with (n := n). cbn [Parser.body]. destruct HF as (t & r & -> & HS).
      rewrite tok_eqb_neq; [exact E|]. rewrite HTy0. cbn [app cur hd]. intro E0. apply HS in E0. lia.
Qed.
End Claims.
