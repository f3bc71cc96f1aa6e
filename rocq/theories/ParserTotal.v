(** The parser comes to an end on every sequence of tokens, and asks for no token after the end of the
    file. *)
From Coq Require Import String.
From Verif Require Import Base ListLemmas Dict DictProofs PDict PDictKeys Strman Text Lex Parser.
Local Open Scope Z_scope. Local Open Scope list_scope.

Notation WfT := (PWf (V:=psym) strkeyhash str_eqb).
(** Comparison tokens are one of the six comparisons. *)
Definition good_tok (t : token) : Prop := t_type t = TOK_CMP -> cmp_name (t_value t) <> None.

Lemma tok_eqb_eq a b : tok_eqb a b = true <-> a = b.
Proof. destruct a, b; cbn; split; congruence. Qed.
Lemma tok_eqb_refl a : tok_eqb a a = true.
Proof. apply tok_eqb_eq; auto. Qed.

(** ** Tokens left *)
Definition left_of (t : token) (r : list token) : nat := if tok_eqb (t_type t) TOK_EOF then 0 else S (length r).
Definition m (st : pst) : nat := left_of (p_tok st) (p_rest st).
Lemma next_tok_left l : forall t r, next_tok l = (t, r) -> (left_of t r <= length l)%nat /\ (Forall good_tok l -> good_tok t /\ Forall good_tok r).
Proof.
  induction l as [|x l IH]; intros t r; cbn [next_tok].
  - intro E. inversion E; subst. split; [cbn; lia|]. intros _. split; auto. intro H. discriminate.
  - destruct (tok_eqb (t_type x) TOK_STATEND).
    + intro E. destruct (IH _ _ E) as [H1 H2]. cbn [length]. split; [lia|]. intro HF. inversion HF; auto.
    + intro E. inversion E; subst. cbn [length]. split; [unfold left_of; destruct (tok_eqb (t_type t) TOK_EOF); lia|]. intro HF. inversion HF; auto.
Qed.

(** ** Invariant *)
Definition inv (st : pst) : Prop := p_symst st <> [] /\ Forall WfT (p_symst st) /\ Forall good_tok (p_tok st :: p_rest st).

Lemma inv_same st st' : p_tok st' = p_tok st -> p_rest st' = p_rest st -> p_symst st' = p_symst st -> inv st -> inv st'.
Proof. unfold inv. intros -> -> -> H. exact H. Qed.
Lemma inv_symst st l : inv st -> l <> [] -> Forall WfT l -> inv (set_symst st l).
Proof. unfold inv. cbn. intros (H1 & H2 & H3) H4 H5. auto. Qed.
Lemma wf_symtab_new : WfT symtab_new.
Proof. apply (wf_new _ _ _ good_str). lia. Qed.
Lemma top_wf st : inv st -> WfT (top st).
Proof. intros (H1 & H2 & _). unfold top. destruct (p_symst st); [congruence|]. inversion H2; auto. Qed.
Lemma tl_wf st : inv st -> Forall WfT (tl (p_symst st)).
Proof. intros (H1 & H2 & _). destruct (p_symst st); [constructor|]. inversion H2; auto. Qed.
Lemma set_base_spec l f : l <> [] -> Forall WfT l -> (forall t, WfT t -> WfT (f t)) -> set_base l f <> [] /\ Forall WfT (set_base l f).
Proof.
  intros H1 H2 Hf. induction l as [|t l IH]; [congruence|]. inversion H2; subst. destruct l as [|u l]; cbn [set_base].
  - split; [congruence|]. constructor; auto.
  - split; [congruence|]. constructor; auto. apply IH; auto. congruence.
Qed.
Lemma sym_add_toks st s sc : p_tok (sym_add st s sc) = p_tok st /\ p_rest (sym_add st s sc) = p_rest st /\ p_more (sym_add st s sc) = p_more st.
Proof.
  unfold sym_add. destruct (match sc with SCOPE_AUTO => zlen (p_symst st) =? 1 | SCOPE_GLOBAL => true | SCOPE_LOCAL => false end); [|auto].
  destruct (string_add (p_strs st) s) as [d p]. destruct (symt_get (last (p_symst st) symtab_new) s); auto.
Qed.
Lemma sym_add_inv st s sc : inv st -> inv (sym_add st s sc).
Proof.
  intro H. unfold sym_add. destruct (match sc with SCOPE_AUTO => zlen (p_symst st) =? 1 | SCOPE_GLOBAL => true | SCOPE_LOCAL => false end).
  - destruct (string_add (p_strs st) s) as [d p].
    destruct (set_base_spec (p_symst st) (fun t => symt_set t s (mkSym p true))) as [E1 E2]; [apply H|apply H| |].
    { intros t Ht. apply (wf_set _ _ _ good_str); auto. }
    destruct (symt_get (last (p_symst st) symtab_new) s); (split; [exact E1|split; [exact E2|apply H]]).
  - split; [cbn; congruence|]. split; [|apply H]. cbn [p_symst set_symst]. constructor; [|apply tl_wf; auto].
    apply (wf_set _ _ _ good_str). apply top_wf; auto.
Qed.
Lemma lookup_set_base l s f x : l <> [] -> (forall t, WfT t -> symt_get (f t) s = Some x) -> Forall WfT l -> sym_lookup s (set_base l f) <> None.
Proof.
  intros H1 Hf HW. induction l as [|t l IH]; [congruence|]. inversion HW; subst. destruct l as [|u l]; cbn [set_base sym_lookup].
  - rewrite Hf by auto. discriminate.
  - destruct (symt_get t s); [discriminate|]. apply IH; auto. congruence.
Qed.
Lemma get_just_set t s x : WfT t -> symt_get (symt_set t s x) s = Some x.
Proof. intro H. unfold symt_get, symt_set. rewrite (get_set _ _ _ good_str) by auto. destruct (str_eqb s s) eqn:E; auto. rewrite (proj2 (str_eqb_eq s s)) in E; auto; discriminate. Qed.
Lemma sym_add_found st s sc : inv st -> sym_lookup s (p_symst (sym_add st s sc)) <> None.
Proof.
  intro H. unfold sym_add. destruct (match sc with SCOPE_AUTO => zlen (p_symst st) =? 1 | SCOPE_GLOBAL => true | SCOPE_LOCAL => false end).
  - destruct (string_add (p_strs st) s) as [d p].
    destruct (symt_get (last (p_symst st) symtab_new) s); cbn [p_symst set_symst]; (apply lookup_set_base with (x := mkSym p true); [apply H| |apply H]; intros t Ht; apply get_just_set; auto).
  - cbn [p_symst set_symst sym_lookup]. rewrite get_just_set by (apply top_wf; auto). discriminate.
Qed.
Lemma clone_wf l : forall t, WfT t -> WfT (fold_left (fun t (e : str * psym) => symt_set t (fst e) (snd e)) l t).
Proof. induction l as [|e l IH]; intros t Ht; cbn [fold_left]; auto. apply IH. apply (wf_set _ _ _ good_str); auto. Qed.
Lemma del_wf l : forall t, WfT t -> WfT (fold_left (fun d (e : str * psym) => premove strkeyhash strcmp d (fst e)) l t).
Proof. induction l as [|e l IH]; intros t Ht; cbn [fold_left]; auto. apply IH. apply (wf_remove _ _ _ good_str); auto. Qed.
Lemma symdel_wf t n : WfT t -> WfT (symdel t n).
Proof. intro H. unfold symdel. apply del_wf; auto. Qed.
Lemma set_base_length l f : length (set_base l f) = length l.
Proof. induction l as [|t l IH]; auto. destruct l; auto. cbn [set_base length] in *. rewrite IH. reflexivity. Qed.
Lemma sym_add_length st s sc : inv st -> length (p_symst (sym_add st s sc)) = length (p_symst st).
Proof.
  intros (H1 & _). unfold sym_add. destruct (match sc with SCOPE_AUTO => zlen (p_symst st) =? 1 | SCOPE_GLOBAL => true | SCOPE_LOCAL => false end).
  - destruct (string_add (p_strs st) s) as [d p]. destruct (symt_get (last (p_symst st) symtab_new) s); cbn [p_symst set_symst]; apply set_base_length.
  - cbn [p_symst set_symst length]. destruct (p_symst st); [congruence|reflexivity].
Qed.

(** ** Fine results: from at most [b] tokens at least [d] are taken; undefined only at the end of the
    file, with no file open. *)
Definition fine (d b : nat) (more : bool) (n : nat) (r : pres) : Prop :=
  match r with
  | Ok None => True
  | Ok (Some (st, _)) => inv st /\ (m st + d <= b)%nat /\ p_more st = more /\ length (p_symst st) = n
  | UB => more = false
  | _ => False
  end.

(** What the steps between two calls keep. *)
Definition keeps (st st' : pst) : Prop :=
  p_tok st' = p_tok st /\ p_rest st' = p_rest st /\ p_more st' = p_more st /\ (inv st -> inv st' /\ length (p_symst st') = length (p_symst st)).
Lemma keeps_refl st : keeps st st.
Proof. split; auto. Qed.
Lemma keeps_trans a b c : keeps a b -> keeps b c -> keeps a c.
Proof.
  intros (A1 & A2 & A3 & A4) (B1 & B2 & B3 & B4). split; [congruence|]. split; [congruence|]. split; [congruence|].
  intro H. destruct (A4 H) as [H1 H2]. destruct (B4 H1) as [H3 H4]. split; [auto|congruence].
Qed.
Lemma keeps_emit st t : keeps st (emit st t).
Proof. repeat split; auto; apply H. Qed.
Lemma keeps_code st c : keeps st (set_code st c).
Proof. repeat split; auto; apply H. Qed.
Lemma keeps_labels st c : keeps st (set_labels st c).
Proof. repeat split; auto; apply H. Qed.
Lemma keeps_strs st c : keeps st (set_strs st c).
Proof. repeat split; auto; apply H. Qed.
Lemma keeps_push st c : keeps st (chunk_push st c).
Proof. repeat split; auto; apply H. Qed.
Lemma keeps_pop st i c : keeps st (chunk_pop st i c).
Proof. repeat split; auto; apply H. Qed.
Lemma keeps_add st s sc : keeps st (sym_add st s sc).
Proof. destruct (sym_add_toks st s sc) as (H1 & H2 & H3). split; auto. split; auto. split; auto. intro H. split; [apply sym_add_inv; auto|apply sym_add_length; auto]. Qed.
Lemma keeps_load st a b c : keeps st (load_var st a b c).
Proof.
  unfold load_var. destruct c; [eapply keeps_trans; apply keeps_emit|]. destruct (0 <=? b); [apply keeps_emit|].
  destruct (b =? TYPE_TABLE); [apply keeps_emit|]. destruct (b =? TYPE_CLOSURE); [apply keeps_emit|apply keeps_refl].
Qed.
Lemma keeps_param st : keeps st (add_param st).
Proof. unfold add_param. destruct (sym_lookup _ _) as [x|]; [destruct (sy_global x)|]; try apply keeps_add; apply keeps_refl. Qed.
Lemma keeps_self st : keeps st (add_self st).
Proof. unfold add_self. destruct (sym_lookup _ _) as [x|]; [destruct (sy_global x)|]; try apply keeps_add; apply keeps_refl. Qed.
Lemma keeps_if (c : bool) st a b : keeps st a -> keeps st b -> keeps st (if c then a else b).
Proof. destruct c; auto. Qed.

Lemma pushed st : inv st -> inv (symt_push st) /\ length (p_symst (symt_push st)) = S (length (p_symst st)).
Proof. intro H. split; [|reflexivity]. apply inv_symst; auto; [congruence|]. constructor; [apply wf_symtab_new|apply H]. Qed.
Lemma cloned st : inv st -> inv (symt_clone st) /\ length (p_symst (symt_clone st)) = S (length (p_symst st)).
Proof. intro H. split; [|reflexivity]. apply inv_symst; auto; [congruence|]. constructor; [apply clone_wf, wf_symtab_new|apply H]. Qed.
Lemma popped st n : inv st -> length (p_symst st) = S (S n) -> inv (symt_pop st) /\ length (p_symst (symt_pop st)) = S n.
Proof.
  intros H HL. cbn [symt_pop p_symst set_symst]. split.
  - apply inv_symst; auto; [|apply tl_wf; auto]. destruct (p_symst st) as [|a [|b l]]; cbn in HL |- *; congruence.
  - destruct (p_symst st); cbn in HL |- *; congruence.
Qed.

Lemma fine_ok d b more n st st' i : keeps st st' -> inv st -> (m st + d <= b)%nat -> p_more st = more -> length (p_symst st) = n -> fine d b more n (Ok (Some (st', i))).
Proof.
  intros (K1 & K2 & K3 & K4) HI HM HR HN. destruct (K4 HI) as [H1 H2]. cbn [fine]. split; auto. split; [unfold m in *; rewrite K1, K2; auto|]. split; congruence.
Qed.
Lemma fine_fetch d b more n st k : inv st -> ty st <> TOK_EOF ->
  (forall st1, inv st1 -> (m st1 < m st)%nat -> p_more st1 = p_more st -> length (p_symst st1) = length (p_symst st) -> fine d b more n (k st1)) ->
  fine d b more n (fetch st k).
Proof.
  intros HI HT HK. unfold fetch. destruct (next_tok (p_rest st)) as [t r] eqn:E. destruct (next_tok_left _ _ _ E) as [HL HG].
  assert (G : fine d b more n (k (set_tok st t r))).
  { destruct HI as (I1 & I2 & I3). inversion I3; subst. destruct (HG H2). apply HK; auto.
    - split; [exact I1|]. split; [exact I2|]. constructor; auto.
    - unfold m. cbn [p_tok p_rest set_tok]. unfold left_of at 2. destruct (tok_eqb (t_type (p_tok st)) TOK_EOF) eqn:ET; [|lia].
      apply tok_eqb_eq in ET. contradiction. }
  destruct (ty st) eqn:ET; try exact G. congruence.
Qed.
Lemma fine_match d b more n t st k : (ty st = t -> fine d b more n k) -> fine d b more n (tokmatch t st k).
Proof. intro H. unfold tokmatch. destruct (tok_eqb (ty st) t) eqn:E; [apply H, tok_eqb_eq; auto|exact I]. Qed.
Lemma fine_error d b more n st : p_more st = more -> fine d b more n (perror_at st).
Proof. intros <-. unfold perror_at. destruct (p_more st) eqn:E; [rewrite andb_false_r; exact I|]. destruct (tok_eqb (ty st) TOK_EOF && negb false); [reflexivity|exact I]. Qed.
Lemma fine_bind d b more n d1 b1 n1 e k : fine d1 b1 more n1 e ->
  (forall st1 i, inv st1 -> (m st1 + d1 <= b1)%nat -> p_more st1 = more -> length (p_symst st1) = n1 -> fine d b more n (k st1 i)) -> fine d b more n (pbind e k).
Proof. intros H HK. unfold pbind. destruct e as [[[st i]|]| | |]; cbn [fine] in H; auto. destruct H as (H1 & H2 & H3 & H4). auto. Qed.
Lemma fine_weak d b more n d1 b1 n1 r : fine d1 b1 more n1 r -> (b1 + d <= b + d1)%nat -> n1 = n -> fine d b more n r.
Proof. intros H HB HN. destruct r as [[[st i]|]| | |]; cbn [fine] in *; auto. destruct H as (H1 & H2 & H3 & H4). split; auto. split; [lia|]. split; congruence. Qed.

Lemma fine_fetch_k d b more n st e k : keeps st e -> inv st -> ty st <> TOK_EOF ->
  (forall st1, inv st1 -> (m st1 < m st)%nat -> p_more st1 = p_more st -> length (p_symst st1) = length (p_symst st) -> fine d b more n (k st1)) ->
  fine d b more n (fetch e k).
Proof.
  intros (K1 & K2 & K3 & K4) HI HT HK. destruct (K4 HI) as [H1 H2]. apply fine_fetch; auto; [unfold ty in *; congruence|].
  intros st1 A B C D. apply HK; auto; try congruence. unfold m in *. rewrite K1, K2 in B. exact B.
Qed.

(** ** Measure *)
Definition need (x : nt) (st : pst) : nat :=
  match x with
  | N_stat | N_blockstat => match ty st with TOK_STATEND | TOK_BLOCKCLOSE => 0 | _ => 1 end
  | N_statlist | N_statloop | N_condlist | N_condargs _ | N_condloop | N_tabloop | N_addloop | N_mulloop | N_modloop
  | N_powerrest | N_shiftloop | N_bitloop | N_idlist | N_idloop | N_idrefloop _ _ _ _ _ => 0
  | _ => 1
  end%nat.
Definition rank (x : nt) : nat :=
  match x with
  | N_blockstat => 35
  | N_statlist => 32
  | N_statloop => 31
  | N_stat => 30
  | N_command => 25
  | N_condlist => 24
  | N_condition => 20
  | N_comparison => 19
  | N_expression => 18
  | N_product => 17
  | N_modulo => 16
  | N_power => 15
  | N_bitshift => 14
  | N_bitandor => 13
  | N_bitnot => 12
  | N_operand => 11
  | _ => 5
  end%nat.

Section Step.
Variable rec : nt -> pst -> pres.
Variable N : nat.
Hypothesis IH : forall x st, inv st -> (40 * m st + rank x < N)%nat -> fine (need x st) (m st) (p_more st) (length (p_symst st)) (rec x st).

Lemma fine_rec x st e : keeps st e -> inv st -> (40 * m st + rank x < N)%nat ->
  fine (need x e) (m st) (p_more st) (length (p_symst st)) (rec x e).
Proof.
  intros (K1 & K2 & K3 & K4) HI HN. destruct (K4 HI) as [H1 H2]. assert (EM : m e = m st) by (unfold m; congruence).
  rewrite <- K3, <- H2, <- EM. apply IH; auto. congruence.
Qed.
Lemma fine_tail d b more n x st e : keeps st e -> inv st -> (40 * m st + rank x < N)%nat -> more = p_more st -> n = length (p_symst st) -> (m st + d <= b + need x e)%nat ->
  fine d b more n (rec x e).
Proof. intros K HI HN -> -> HD. eapply fine_weak; [apply fine_rec; eauto|lia|auto]. Qed.
Lemma fine_call d b more n x st e k : keeps st e -> inv st -> (40 * m st + rank x < N)%nat -> more = p_more st ->
  (forall st1 i, inv st1 -> (m st1 + need x e <= m st)%nat -> p_more st1 = p_more st -> length (p_symst st1) = length (p_symst st) -> fine d b more n (k st1 i)) ->
  fine d b more n (pbind (rec x e) k).
Proof. intros K HI HN -> HK. eapply fine_bind; [apply fine_rec; eauto|]. intros st1 i A B C D. apply HK; auto. Qed.

Ltac kp :=
  match goal with
  | |- keeps _ ?a => is_var a; apply keeps_refl
  | |- keeps _ (emit ?s _) => apply keeps_trans with s; [kp|apply keeps_emit]
  | |- keeps _ (set_code ?s _) => apply keeps_trans with s; [kp|apply keeps_code]
  | |- keeps _ (set_labels ?s _) => apply keeps_trans with s; [kp|apply keeps_labels]
  | |- keeps _ (set_strs ?s _) => apply keeps_trans with s; [kp|apply keeps_strs]
  | |- keeps _ (chunk_push ?s _) => apply keeps_trans with s; [kp|apply keeps_push]
  | |- keeps _ (chunk_pop ?s _ _) => apply keeps_trans with s; [kp|apply keeps_pop]
  | |- keeps _ (sym_add ?s _ _) => apply keeps_trans with s; [kp|apply keeps_add]
  | |- keeps _ (load_var ?s _ _ _) => apply keeps_trans with s; [kp|apply keeps_load]
  | |- keeps _ (add_param ?s) => apply keeps_trans with s; [kp|apply keeps_param]
  | |- keeps _ (add_self ?s) => apply keeps_trans with s; [kp|apply keeps_self]
  | |- keeps _ (if _ then _ else _) => apply keeps_if; kp
  | |- keeps _ (match ?x with _ => _ end) => destruct x; kp
  end.
Ltac known := repeat match goal with E : ty ?s = ?t, H : context[match ty ?s with _ => _ end] |- _ => lazymatch t with ty _ => fail | _ => rewrite E in H; cbn iota in H end
  | E : ty ?s = ?t |- context[match ty ?s with _ => _ end] => rewrite E; cbn iota end.
Ltac side := try assumption; try lia; try congruence; try (known; lia).
Ltac fet := eapply fine_fetch_k; [kp|side|side|intros ?st ?HI ?HM ?HP ?HL].
Ltac call := eapply fine_call; [kp|side|cbn [rank] in *; side|side|intros ?st ?i ?HI ?HM ?HP ?HL; cbn [need] in *; cbn [ty p_tok emit set_code set_labels] in *].
Ltac tailc := eapply fine_tail; [kp|side|cbn [rank] in *; side|side|side|cbn [need]; side].
Ltac mat := apply fine_match; let H := fresh "T" in intro H; repeat match type of H with
  | ty (set_labels ?s _) = ?t => change (ty s = t) in H
  | ty (chunk_push ?s _) = ?t => change (ty s = t) in H
  | ty (emit ?s _) = ?t => change (ty s = t) in H end.
Ltac tst := lazymatch goal with |- fine _ _ _ _ (if tok_eqb (ty ?s) ?t then _ else _) => destruct (tok_eqb (ty s) t) eqn:?E; [apply tok_eqb_eq in E|] end.
Ltac fin := unfold pok; eapply fine_ok; [kp|side|cbn [need]; side|side|side].

Lemma fine_op t next loop code st : (forall c d, need loop c = 0 /\ need next d = 1)%nat -> (rank loop < 40 /\ rank next < 40)%nat -> t <> TOK_EOF ->
  inv st -> (40 * m st < S N)%nat -> fine 0 (m st) (p_more st) (length (p_symst st)) (op_loop rec t next loop code st).
Proof.
  intros HN [HR HR2] HT HI HM. unfold op_loop. tst; [|fin]. fet. call. rewrite (proj2 (HN st0 st0)) in HM1. tailc.
Qed.

Lemma fine_key d b more n st k : inv st -> p_more st = more ->
  (forall e, inv e -> m e = m st -> p_more e = p_more st -> length (p_symst e) = length (p_symst st) -> ty e <> TOK_EOF -> fine d b more n (k e)) -> fine d b more n (table_key st k).
Proof.
  intros HI HP HK.
  assert (G : forall e, keeps st e -> ty st <> TOK_EOF -> fine d b more n (k e)).
  { intros e (K1 & K2 & K3 & K4) HT. destruct (K4 HI). apply HK; auto; [unfold m; congruence|unfold ty in *; congruence]. }
  unfold table_key. destruct (ty st) eqn:E; try (apply fine_error; auto); [|apply G; [kp|congruence]].
  destruct (string_add (p_strs st) (t_value (p_tok st))) as [d0 p0]. apply G; [kp|congruence].
Qed.

Ltac go :=
  cbn beta zeta;
  match goal with
  | |- fine _ _ _ _ (tokmatch _ _ _) => mat; go
  | |- fine _ _ _ _ (fetch _ _) => fet; go
  | |- fine _ _ _ _ (pbind (rec _ _) _) => call; go
  | |- fine _ _ _ _ (rec _ _) => tailc
  | |- fine _ _ _ _ (table_key _ _) => apply fine_key; [side|side|intros ?st ?HI ?HM ?HP ?HL ?HT]; go
  | |- fine _ _ _ _ (perror_at _) => apply fine_error; side
  | |- fine _ _ _ _ perror => exact I
  | |- fine _ _ _ _ (pok _) => fin
  | |- fine _ _ _ _ (Ok (Some _)) => fin
  | |- fine _ _ _ _ (if tok_eqb (ty ?s) ?t then _ else _) => let E := fresh "E" in destruct (tok_eqb (ty s) t) eqn:E; [apply tok_eqb_eq in E|]; go
  | |- fine _ _ _ _ (if ?c then _ else _) => let E := fresh "E" in destruct c eqn:E; go
  | |- fine _ _ _ _ (match ty ?s with _ => _ end) => let E := fresh "E" in destruct (ty s) eqn:E; go
  | |- fine _ _ _ _ (let (_, _) := string_add ?a ?b in _) => destruct (string_add a b); go
  end.

Lemma body_fine x st : inv st -> (40 * m st + rank x < S N)%nat -> fine (need x st) (m st) (p_more st) (length (p_symst st)) (body rec x st).
Proof.
  intros HI HM. destruct x; cbn [body rank need] in *;
    try (apply fine_op; [intros; cbn [need]; auto|cbn [rank]; lia|discriminate|auto|lia]);
    try (go; fail).
  - (* statloop *) destruct (ty st) eqn:E; cbn [tok_eqb andb]; cbn beta zeta; go.
  - (* block *) mat. fet. tst; [go|].
    set (st1 := if push then if zlen (p_symst st0) =? 1 then symt_push st0 else symt_clone st0 else st0).
    assert (G : inv st1 /\ m st1 = m st0 /\ p_more st1 = p_more st0 /\ length (p_symst st1) = (if push then S (length (p_symst st0)) else length (p_symst st0))).
    { subst st1. destruct push; [|auto]. destruct (zlen (p_symst st0) =? 1); [destruct (pushed st0 HI0)|destruct (cloned st0 HI0)]; auto. }
    destruct G as (G1 & G2 & G3 & G4). eapply fine_call with (st := st1); [kp|side|cbn [rank]; lia|side|]. intros st2 i HI2 HM2 HP2 HL2. mat. fet.
    set (st4 := if psize (top st3) - psize (top st1) =? 0 then st3 else _).
    assert (K : keeps st3 st4) by (subst st4; kp). destruct K as (K1 & K2 & K3 & K4). destruct (K4 HI1) as [K5 K6].
    set (st5 := set_symst st4 _).
    assert (G : inv st5 /\ length (p_symst st5) = length (p_symst st4)).
    { split.
      - apply inv_symst; [auto|congruence|]. constructor; [apply symdel_wf, top_wf; auto|apply tl_wf; auto].
      - subst st5. cbn [p_symst set_symst length]. destruct K5 as (K5 & _). destruct (p_symst st4); [congruence|reflexivity]. }
    destruct G as [G5 G6].
    destruct push.
    + destruct (p_symst st0) as [|u l] eqn:ES; [destruct HI0 as [[] _]; auto|]. cbn [length] in *.
      destruct (popped st5 (length l)) as [P1 P2]; [auto|congruence|].
      cbn [pok fine]. split; [exact P1|]. split; [|split; [change (p_more st4 = p_more st); congruence|congruence]].
      change (m st4 + 1 <= m st)%nat. unfold m in *. rewrite K1, K2. cbn [need] in *. lia.
    + cbn [pok fine]. split; [exact G5|]. split; [|split; [change (p_more st4 = p_more st); congruence|congruence]].
      change (m st4 + 1 <= m st)%nat. unfold m in *. rewrite K1, K2. cbn [need] in *. lia.
  - (* var *) mat. fet. mat.
    assert (G : fine 1 (m st) (p_more st) (length (p_symst st))
      match sym_lookup (t_value (p_tok st0)) (p_symst (sym_add st0 (t_value (p_tok st0)) SCOPE_AUTO)) with
      | None => UB
      | Some s => fetch (if sy_global s then emit (sym_add st0 (t_value (p_tok st0)) SCOPE_AUTO) (i1 "pushs" (print_d (sy_pos s))) else sym_add st0 (t_value (p_tok st0)) SCOPE_AUTO)
          (fun st1 => if tok_eqb (ty st1) TOK_ASSIGN
             then fetch (if sy_global s then st1 else emit (emit st1 (i0 "pushnil")) (i1 "lstore" (print_d (sy_pos s))))
                    (fun st2 => '[ st3; _]<~ rec N_expression st2;; pok (if sy_global s then emit st3 (i0 "gstore") else emit st3 (i1 "lstore" (print_d (sy_pos s)))))
             else pok (if sy_global s then emit (emit st1 (i0 "pushnil")) (i0 "gstore") else emit (emit st1 (i0 "pushnil")) (i1 "lstore" (print_d (sy_pos s)))))
      end).
    { destruct (sym_lookup _ (p_symst (sym_add st0 (t_value (p_tok st0)) SCOPE_AUTO))) as [s|] eqn:ES; [|exfalso; exact (sym_add_found _ _ _ HI0 ES)]. go. }
    destruct (sym_lookup (t_value (p_tok st0)) (p_symst st0)) as [s0|]; [|exact G]. destruct (sy_global s0); [exact G|]. go.
  - (* fun *) mat. fet. mat. destruct (1 <? zlen (p_symst st0)) eqn:EZ; [go|]. fet. mat. fet.
    destruct (pushed st2 HI2) as [P1 P2].
    destruct (keeps_self (symt_push st2)) as (K1 & K2 & K3 & K4). destruct (K4 P1) as [K5 K6].
    eapply fine_call with (st := symt_push st2); [apply keeps_self|side|cbn [rank]; change (m (symt_push st2)) with (m st2); lia|change (p_more st = p_more st2); congruence|].
    intros st3 i HI3 HM3 HP3 HL3. change (m (symt_push st2)) with (m st2) in HM3. change (p_more (symt_push st2)) with (p_more st2) in HP3. mat. fet.
    assert (G : forall st5, inv st5 -> (m st5 < m st3)%nat -> p_more st5 = p_more st -> length (p_symst st5) = length (p_symst st3) ->
      fine 1 (m st) (p_more st) (length (p_symst st)) ('[ st6; _]<~ rec (N_block false) st5;; pok (chunk_pop (symt_pop (emit st6 (i0 "ret0"))) (length (p_chunks match sym_lookup (t_value (p_tok st0)) (p_symst st0) with Some _ => st0 | None => sym_add st0 (t_value (p_tok st0)) SCOPE_AUTO end)) (p_code match sym_lookup (t_value (p_tok st0)) (p_symst st0) with Some _ => st0 | None => sym_add st0 (t_value (p_tok st0)) SCOPE_AUTO end)))).
    { intros st5 A B C D. eapply fine_call with (st := st5); [kp|side|cbn [rank]; lia|side|]. intros st6 i6 A6 B6 C6 D6. cbn [need] in *.
      destruct (p_symst st0) as [|u l] eqn:ES; [destruct HI0 as [[] _]; auto|]. cbn [length] in *.
      destruct (popped st6 (length l)) as [P3 P4]; [auto|congruence|].
      cbn [pok fine]. split; [exact P3|]. split; [change (m st6 + 1 <= m st)%nat; lia|]. split; [change (p_more st6 = p_more st); congruence|change (length (tl (p_symst st6)) = length (p_symst st)); cbn [symt_pop p_symst set_symst] in P4; congruence]. }
    tst; [|apply G; side]. fet. apply G; side.
  - (* comparison *) call. tst; [|fin]. fet. call.
    destruct (cmp_name (t_value (p_tok st0))) eqn:EC; [fin|]. exfalso.
    destruct HI0 as (_ & _ & HG). inversion HG as [|? ? HG1 _]; subst. exact (HG1 E EC).
  - (* expression *) tst; [|go]. fet.
    destruct (tok_eqb (ty st0) TOK_DOT || tok_eqb (ty st0) TOK_BLOCKCLOSE) eqn:EB; [|go].
    change (tok_eqb (ty (emit st0 (i0 "pusht"))) TOK_DOT) with (tok_eqb (ty st0) TOK_DOT). go.
  - (* idref *) mat.
    set (st1 := match sym_lookup (t_value (p_tok st)) (p_symst st) with Some _ => st | None => _ end).
    assert (K : keeps st st1) by (subst st1; kp).
    destruct (sym_lookup (t_value (p_tok st)) (p_symst st1)) as [s|] eqn:ES.
    + eapply fine_fetch_k; [exact K|side|side|]. intros st2 A B C D. tailc.
    + exfalso. subst st1. destruct (sym_lookup (t_value (p_tok st)) (p_symst st)) eqn:E0; [congruence|]. exact (sym_add_found _ _ _ HI ES).
  - (* lambda *) mat. fet. mat. fet.
    set (st2 := if zlen (p_symst st1) =? 1 then add_self (symt_push st1) else symt_clone st1).
    assert (G : inv st2 /\ m st2 = m st1 /\ p_more st2 = p_more st1 /\ length (p_symst st2) = S (length (p_symst st1))).
    { subst st2. destruct (zlen (p_symst st1) =? 1); [|destruct (cloned st1 HI1); auto]. destruct (pushed st1 HI1) as [P1 P2].
      destruct (keeps_self (symt_push st1)) as (K1 & K2 & K3 & K4). destruct (K4 P1) as [K5 K6]. split; auto. split; [unfold m; rewrite K1, K2; reflexivity|]. split; [rewrite K3; reflexivity|congruence]. }
    destruct G as (G1 & G2 & G3 & G4).
    eapply fine_call with (st := st2); [kp|side|cbn [rank]; lia|side|]. intros st3 i HI3 HM3 HP3 HL3. mat. fet.
    eapply fine_call with (st := st4); [kp|side|cbn [rank]; lia|side|]. intros st6 i6 A6 B6 C6 D6. cbn [need] in *.
    destruct (p_symst st0) as [|u l] eqn:ES; [destruct HI0 as [[] _]; auto|]. cbn [length] in *.
    destruct (popped st6 (length l)) as [P3 P4]; [auto|congruence|].
    cbn [pok fine]. split; [exact P3|]. split; [change (m st6 + 1 <= m st)%nat; lia|]. split; [change (p_more st6 = p_more st); congruence|change (length (tl (p_symst st6)) = length (p_symst st)); cbn [symt_pop p_symst set_symst] in P4; congruence].
Qed.
End Step.

Theorem parse_fine n : forall x st, inv st -> (40 * m st + rank x < n)%nat -> fine (need x st) (m st) (p_more st) (length (p_symst st)) (parse n x st).
Proof. induction n as [|n IH]; intros x st HI HN; [lia|]. cbn [parse]. apply body_fine with (N := n); auto. Qed.
