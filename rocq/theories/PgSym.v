(** Lemmas for the proof that the parser emits the code of Gen.v: strings, symbol tables, chunks. *)
From Coq Require Import String.
From Verif Require Import Base ListLemmas Dict DictSpec DictProofs PDict PDictKeys Strman StrmanProofs Text TextProofs Lex Instr Asm AsmSpec
  Parser ParserFuel Source Gen PgBase.
Local Open Scope Z_scope. Local Open Scope list_scope.

Ltac Zify.zify_post_hook ::= idtac.

Lemma same_eqb x y : same x y = str_eqb x y. Proof. reflexivity. Qed.
Lemma same_refl x : same x x = true. Proof. apply str_eqb_eq. reflexivity. Qed.
Lemma same_eq x y : same x y = true <-> x = y. Proof. apply str_eqb_eq. Qed.
Lemma same_neq x y : same x y = false <-> x <> y.
Proof. rewrite <- same_eq. destruct (same x y); split; congruence. Qed.

(** ** Positions in a list *)
Lemma index_range x l : forall i, index x l = Some i -> 0 <= i < zlen l.
Proof.
  induction l as [|y r IH]; cbn [index]; intros i H; [discriminate|]. rewrite zlen_cons. pose proof (zlen_nonneg r). destruct (same x y).
  - inversion H. lia.
  - destruct (index x r) as [j|]; [|discriminate]. inversion H. specialize (IH _ eq_refl). lia.
Qed.
Lemma index_none x l : index x l = None <-> ~ In x l.
Proof.
  induction l as [|y r IH]; cbn [index In]; [tauto|]. destruct (same x y) eqn:E.
  - apply same_eq in E. subst. split; [discriminate|]. intro H. exfalso. auto.
  - apply same_neq in E. destruct (index x r) as [j|]; split; try discriminate; intros H.
    + exfalso. apply H. right. destruct (In_dec (list_eq_dec Z.eq_dec) x r); auto. apply IH in n. discriminate.
    + intros [H1|H1]; [congruence|]. apply (proj1 IH eq_refl H1).
    + reflexivity.
Qed.
Lemma index_app x a b : index x (a ++ b) = match index x a with Some i => Some i | None => option_map (fun i => zlen a + i) (index x b) end.
Proof.
  induction a as [|y a IH]; cbn [app index].
  - destruct (index x b); cbn; auto. 
  - destruct (same x y); auto. rewrite IH. destruct (index x a); auto. rewrite zlen_cons. destruct (index x b); cbn [option_map]; auto. f_equal. lia.
Qed.
Lemma index_ext x a b i : index x a = Some i -> index x (a ++ b) = Some i.
Proof. intro H. rewrite index_app, H. reflexivity. Qed.
Lemma index_new x a : ~ In x a -> index x (a ++ [x]) = Some (zlen a).
Proof. intro H. rewrite index_app, (proj2 (index_none x a) H). cbn [index]. rewrite same_refl. cbn. f_equal. lia. Qed.

(** ** Strings *)
Definition strs_ok (d : pdict str Z) (l : list str) : Prop :=
  PWf (V:=Z) strkeyhash str_eqb d /\ NoDup l /\ (forall s, str_get d s = index s l) /\ psize d = zlen l /\ Forall chars_ok l.
Lemma strs_new : strs_ok (pnew 100) [].
Proof.
  split; [apply (wf_new _ _ _ good_str); lia|]. split; [constructor|]. split; [|split; [reflexivity|constructor]].
  intro s. unfold str_get. rewrite (get_new _ _ _ good_str) by lia. reflexivity.
Qed.
Lemma NoDup_snoc {A} (l : list A) x : NoDup l -> ~ In x l -> NoDup (l ++ [x]).
Proof. intros H1 H2. apply NoDup_Add with (a := x) (l := l); [rewrite <- (app_nil_r l) at 1; apply Add_app|]. auto. Qed.
Lemma addstr_spec g s p g' : addstr g s = (p, g') ->
  index s (g_strs g') = Some p /\ (exists l, g_strs g' = g_strs g ++ l) /\ g_lab g' = g_lab g /\ g_chunks g' = g_chunks g.
Proof.
  unfold addstr. destruct (index s (g_strs g)) as [i|] eqn:E; intro H; inversion H; subst; cbn [g_strs g_lab g_chunks].
  - repeat split; auto. exists []. rewrite app_nil_r. reflexivity.
  - repeat split; eauto. apply index_new. apply index_none. auto.
Qed.
Lemma string_add_ok d g s p g' : strs_ok d (g_strs g) -> chars_ok s -> addstr g s = (p, g') -> zlen (g_strs g') <= 65535 ->
  exists d', string_add d s = (d', p) /\ strs_ok d' (g_strs g') /\ 0 <= p < 65535.
Proof.
  intros (W & ND & HG & HS & HC) Hs HA HL. unfold string_add. rewrite HG. destruct (addstr_spec _ _ _ _ HA) as (HI & _). apply index_range in HI.
  unfold addstr in HA. destruct (index s (g_strs g)) as [i|] eqn:E; inversion HA; subst; cbn [g_strs] in *.
  - exists d. split; auto. split; [exact (conj W (conj ND (conj HG (conj HS HC))))|lia].
  - rewrite HS. assert (ES : wrap16 (zlen (g_strs g)) = zlen (g_strs g)).
    { unfold wrap16. apply Z.mod_small. rewrite zlen_app in HL. change (zlen [s]) with 1 in HL. pose proof (zlen_nonneg (g_strs g)). lia. }
    rewrite ES. eexists. split; [reflexivity|]. split; [|lia]. split; [apply (wf_set _ _ _ good_str); auto|].
    split; [apply NoDup_snoc; auto; apply index_none; auto|]. split; [|split].
    + intro x. unfold str_get. rewrite (get_set _ _ _ good_str) by auto. fold (str_get d x). rewrite HG.
      destruct (str_eqb s x) eqn:Ex.
      * apply str_eqb_eq in Ex. subst x. symmetry. apply index_new. apply index_none; auto.
      * rewrite index_app. destruct (index x (g_strs g)); auto. cbn [index]. rewrite same_eqb.
        destruct (str_eqb x s) eqn:E3; auto. apply str_eqb_eq in E3. subst. rewrite (proj2 (str_eqb_eq _ _)) in Ex; auto; discriminate.
    + rewrite (size_set _ _ _ good_str) by auto. fold (str_get d s). rewrite HG, E, zlen_app. change (zlen [s]) with 1. f_equal. exact HS.
    + apply Forall_app. auto.
Qed.

(** ** Symbol tables *)
Definition tab_ok (t : symtab) (l : list str) : Prop :=
  PWf (V:=psym) strkeyhash str_eqb t /\ psize t = zlen l /\
  (forall x, symt_get t x = match index x l with Some i => Some (mkSym i false) | None => None end).
Lemma tab_new_ok : tab_ok symtab_new [].
Proof.
  split; [apply (wf_new _ _ _ good_str); lia|]. split; [reflexivity|]. intro s. unfold symt_get, symtab_new. rewrite (get_new _ _ _ good_str) by lia. reflexivity.
Qed.
Lemma tab_add_ok t l x : tab_ok t l -> ~ In x l -> tab_ok (symt_set t x (mkSym (psize t) false)) (l ++ [x]).
Proof.
  intros (W & HS & HG) HN. split; [apply (wf_set _ _ _ good_str); auto|]. split.
  - unfold symt_set. rewrite (size_set _ _ _ good_str) by auto. fold (symt_get t x). rewrite HG, (proj2 (index_none x l) HN), zlen_app. change (zlen [x]) with 1. f_equal. exact HS.
  - intro y. unfold symt_get, symt_set. rewrite (get_set _ _ _ good_str) by auto. fold (symt_get t y). rewrite HG, HS.
    destruct (str_eqb x y) eqn:E.
    + apply str_eqb_eq in E. subst y. rewrite index_new by auto. reflexivity.
    + rewrite index_app. destruct (index y l); auto. cbn [index]. rewrite same_eqb.
      destruct (str_eqb y x) eqn:E3; auto. apply str_eqb_eq in E3. subst. rewrite (proj2 (str_eqb_eq _ _)) in E; auto; discriminate.
Qed.
(** Copying a table. *)
Lemma fold_set_ok es : NoDupK str_eqb es -> forall t : symtab, PWf (V:=psym) strkeyhash str_eqb t ->
  (forall e, In e es -> symt_get t (fst e) = None) ->
  let t' := fold_left (fun t e => symt_set t (fst e) (snd e)) es t in
  PWf (V:=psym) strkeyhash str_eqb t' /\ psize t' = psize t + zlen es /\
  (forall x, symt_get t' x = match find (fun e => str_eqb x (fst e)) es with Some e => Some (snd e) | None => symt_get t x end).
Proof.
  induction es as [|[k v] es IH]; intros HN t W HD; cbn [fold_left fst snd find].
  - split; auto. split; [rewrite zlen_nil; lia|auto].
  - destruct HN as [HN1 HN2]. destruct (IH HN2 (symt_set t k v)) as (A & B & C).
    + apply (wf_set _ _ _ good_str); auto.
    + intros e He. unfold symt_get, symt_set. rewrite (get_set _ _ _ good_str) by auto. specialize (HN1 _ He). cbn [fst] in HN1. rewrite HN1. apply HD. right; auto.
    + split; auto. split.
      * rewrite B, zlen_cons. unfold symt_set. rewrite (size_set _ _ _ good_str) by auto. fold (symt_get t k). pose proof (HD (k, v) (or_introl eq_refl)) as HK. cbn [fst] in HK. rewrite HK. change (@psize str psym t) with (@psize (list Z) psym t). lia.
      * intro x. rewrite C. unfold symt_get, symt_set. rewrite (get_set _ _ _ good_str) by auto. fold (symt_get t x).
        destruct (str_eqb x k) eqn:E.
        -- apply str_eqb_eq in E. subst x. destruct (find _ es) as [e|] eqn:EF.
           ++ apply find_some in EF as [H1 H2]. specialize (HN1 _ H1). cbn [fst] in HN1. congruence.
           ++ rewrite (proj2 (str_eqb_eq k k)) by auto. reflexivity.
        -- destruct (find _ es); auto. destruct (str_eqb k x) eqn:E2; auto. apply str_eqb_eq in E2. subst. rewrite (proj2 (str_eqb_eq _ _)) in E; auto; discriminate.
Qed.
Lemma tab_clone_ok t l : tab_ok t l -> tab_ok (fold_left (fun t e => symt_set t (fst e) (snd e)) (pentries t) symtab_new) l.
Proof.
  intros (W & HS & HG). destruct (fold_set_ok (pentries t) (entries_nodup _ _ _ W) symtab_new) as (A & B & C).
  - apply tab_new_ok.
  - intros e _. apply tab_new_ok.
  - split; auto. split.
    + rewrite B. replace (psize symtab_new) with 0 by reflexivity. rewrite <- HS. reflexivity.
    + intro x. rewrite C, <- HG. match goal with |- match ?f with _ => _ end = _ => destruct f as [e|] eqn:EF end.
      * apply find_some in EF as [H1 H2]. symmetry. apply (get_in _ _ _ good_str); auto. exists (fst e). destruct e; auto.
      * destruct tab_new_ok as (_ & _ & ->). cbn [index]. symmetry. apply (get_none _ _ _ good_str); auto.
        intros e He. pose proof (find_none _ _ EF _ He) as H. exact H.
Qed.
(** The table of global symbols. *)
Definition base_ok (t : symtab) (strs : list str) : Prop :=
  PWf (V:=psym) strkeyhash str_eqb t /\
  (forall x s, symt_get t x = Some s -> sy_global s = true /\ index x strs = Some (sy_pos s)).
Lemma base_new strs : base_ok symtab_new strs.
Proof. split; [apply tab_new_ok|]. intros x s H. destruct tab_new_ok as (_ & _ & E). rewrite E in H. discriminate. Qed.
Lemma base_ext t a b : base_ok t a -> base_ok t (a ++ b).
Proof. intros (W & H). split; auto. intros x s E. destruct (H _ _ E). split; auto. apply index_ext; auto. Qed.
Lemma base_set t l x p : base_ok t l -> index x l = Some p -> base_ok (symt_set t x (mkSym p true)) l.
Proof.
  intros (W & H) E. split; [apply (wf_set _ _ _ good_str); auto|]. intros y s. unfold symt_get, symt_set. rewrite (get_set _ _ _ good_str) by auto.
  destruct (str_eqb x y) eqn:Ex; [|apply H]. apply str_eqb_eq in Ex. subst y. intro Hs. inversion Hs; subst. auto.
Qed.

(** The tables above the global one and the scope. *)
Definition scope_ok (us : list symtab) (sc : Source.scope) : Prop :=
  match sc with
  | Top => us = []
  | TopBlock => us <> [] /\ Forall (fun t => tab_ok t []) us
  | Local l => few l = true /\ exists t lower, us = t :: lower /\ tab_ok t l /\ Forall (fun u => exists l', tab_ok u l' /\ incl l' l) lower
  end.
Lemma lookup_app x us r : sym_lookup x (us ++ r) = match sym_lookup x us with Some s => Some s | None => sym_lookup x r end.
Proof. induction us as [|t us IH]; cbn [app sym_lookup]; auto. destruct (symt_get t x); auto. Qed.
Lemma lookup_lower x us l : Forall (fun u => exists l', tab_ok u l' /\ incl l' l) us -> index x l = None -> sym_lookup x us = None.
Proof.
  intros H E. apply index_none in E. induction H as [|u us (l' & (_ & _ & HG) & HI) _ IH]; cbn [sym_lookup]; auto.
  rewrite HG. rewrite (proj2 (index_none x l')); [auto|]. intro HIn. apply E, HI, HIn.
Qed.
(** Looking a name up: its slot, or the global table. *)
Lemma lookup_scope x us sc : scope_ok us sc -> sym_lookup x us = option_map (fun i => mkSym i false) (slot sc x).
Proof.
  destruct sc as [| |l]; cbn [scope_ok slot option_map].
  - intros ->. reflexivity.
  - intros (_ & H). induction H as [|u us (_ & _ & HG) _ IH]; cbn [sym_lookup]; auto. rewrite HG. exact IH.
  - intros (_ & t & lower & -> & (_ & _ & HG) & HL). cbn [sym_lookup]. rewrite HG. destruct (index x l) eqn:E; cbn [option_map]; auto.
    eapply lookup_lower; eauto.
Qed.

(** ** The state of the parser and the state of Gen.v *)
Definition csym_ok (strs : list str) (n : option str) (s : option csym) : Prop :=
  match n with
  | None => s = None
  | Some x => exists p, s = Some (mkCs x (mkSym p true) true) /\ index x strs = Some p
  end.
Definition cmatch (strs : list str) (c : chunk) (gc : gchunk) : Prop :=
  c_label c = gc_label gc /\ appends [] (c_code c) (gc_code gc) /\ csym_ok strs (gc_name gc) (c_sym c).
Record PS (P : list chunk) (FN : list str) (st : pst) (g : gst) (us : list symtab) : Prop := mkPS {
  ps_lab : p_labels st = g_lab g;
  ps_strs : strs_ok (p_strs st) (g_strs g);
  ps_sym : exists base, p_symst st = us ++ [base] /\ base_ok base (g_strs g);
  ps_chunks : exists cs, p_chunks st = P ++ cs /\ Forall2 (cmatch (g_strs g)) cs (g_chunks g);
  ps_names : forall c s, In c (p_chunks st) -> c_sym c = Some s -> In (cs_name s) FN
}.
Lemma PS_same P FN st st' g us : PS P FN st g us -> p_labels st' = p_labels st -> p_strs st' = p_strs st -> p_symst st' = p_symst st ->
  p_chunks st' = p_chunks st -> PS P FN st' g us.
Proof. intros [A B C D E] E1 E2 E3 E4. constructor; rewrite ?E1, ?E2, ?E3, ?E4; auto. Qed.
Lemma PS_adv P FN st g us : PS P FN st g us -> PS P FN (adv st) g us.
Proof. intro H. eapply PS_same; eauto using adv_labels, adv_strs, adv_symst, adv_chunks. Qed.
Lemma PS_emit P FN st g us t : PS P FN st g us -> PS P FN (emit st t) g us.
Proof. intro H. eapply PS_same; eauto. Qed.
Lemma PS_code P FN st g us c : PS P FN st g us -> PS P FN (set_code st c) g us.
Proof. intro H. eapply PS_same; eauto. Qed.
Lemma cmatch_ext a b cs gs : Forall2 (cmatch a) cs gs -> Forall2 (cmatch (a ++ b)) cs gs.
Proof.
  induction 1 as [|c gc cs gs (H1 & H2 & H3) _ IH]; constructor; auto. split; [|split]; auto. unfold csym_ok in *. destruct (gc_name gc); auto.
  destruct H3 as (p & H3 & H4). exists p. split; auto. apply index_ext. auto.
Qed.
(** A string added. *)
Lemma PS_string P FN st g us s p g' : PS P FN st g us -> chars_ok s -> addstr g s = (p, g') -> zlen (g_strs g') <= 65535 ->
  exists d', string_add (p_strs st) s = (d', p) /\ PS P FN (set_strs st d') g' us /\ 0 <= p < 65535.
Proof.
  intros [A B (base & C1 & C2) (cs & D1 & D2) E] Hs HA HL. destruct (string_add_ok _ _ _ _ _ B Hs HA HL) as (d' & E1 & E2 & E3).
  destruct (addstr_spec _ _ _ _ HA) as (_ & (l & EL) & F1 & F2). exists d'. split; auto. split; auto. constructor; cbn [p_labels p_strs p_symst p_chunks set_strs]; auto.
  - congruence.
  - exists base. split; auto. rewrite EL. apply base_ext. auto.
  - exists cs. split; auto. rewrite EL, F2. apply cmatch_ext. auto.
Qed.
(** Labels taken. *)
Lemma PS_labels P FN st g us k : PS P FN st g us -> PS P FN (set_labels st (p_labels st + k)) (labels g k) us.
Proof. intros [A B C D E]. constructor; auto. cbn. congruence. Qed.

Lemma kill_id P FN x : (forall c s, In c P -> c_sym c = Some s -> In (cs_name s) FN) -> ~ In x FN -> map (kill x) P = P.
Proof.
  induction P as [|c P IH]; intros H HN; cbn [map]; auto. rewrite IH; auto; [|intros; eapply H; eauto; right; auto]. f_equal. unfold kill.
  destruct (c_sym c) as [s|] eqn:E; auto. destruct (strcmp x (cs_name s) =? 0) eqn:E2; auto. apply Z.eqb_eq, strcmp_eq in E2.
  exfalso. apply HN. rewrite E2. eapply H; eauto. left; auto.
Qed.
Lemma set_base_app us base f : set_base (us ++ [base]) f = us ++ [f base].
Proof. induction us as [|t us IH]; auto. cbn [app set_base]. rewrite IH. destruct (us ++ [base]) eqn:E; auto. destruct us; discriminate. Qed.
Lemma last_app us base : last (us ++ [base]) symtab_new = base.
Proof. apply last_last. Qed.
(** A global symbol added: unknown so far, or not the name of a function. *)
Lemma PS_global P FN st g us x p g' sc : PS P FN st g us -> chars_ok x -> addstr g x = (p, g') -> zlen (g_strs g') <= 65535 ->
  (sc = SCOPE_GLOBAL \/ sc = SCOPE_AUTO /\ us = []) -> (sym_lookup x (p_symst st) = None \/ ~ In x FN) ->
  exists st', sym_add st x sc = st' /\ PS P FN st' g' us /\ 0 <= p < 65535 /\
    p_tok st' = p_tok st /\ p_rest st' = p_rest st /\ p_code st' = p_code st /\
    (sym_lookup x us = None -> sym_lookup x (p_symst st') = Some (mkSym p true)).
Proof.
  intros HP Hx HA HL HSc HN. destruct (PS_string _ _ _ _ _ _ _ _ HP Hx HA HL) as (d' & E1 & E2 & E3).
  destruct E2 as [A B (base & C1 & C2) (cs & D1 & D2) E]. cbn [p_labels p_strs p_symst p_chunks set_strs] in *.
  eexists. split; [reflexivity|]. unfold sym_add.
  replace (match sc with SCOPE_LOCAL => false | SCOPE_GLOBAL => true | SCOPE_AUTO => zlen (p_symst st) =? 1 end) with true.
  2: { destruct HSc as [->|[-> ->]]; auto. rewrite C1. reflexivity. }
  rewrite E1, C1, last_app, set_base_app. destruct (addstr_spec _ _ _ _ HA) as (HI & _).
  set (st2 := match symt_get base x with Some _ => _ | None => _ end).
  assert (ES : st2 = set_strs st d').
  { unfold st2. destruct (symt_get base x) eqn:EG; auto. destruct HN as [HN|HN].
    - rewrite C1, lookup_app in HN. destruct (sym_lookup x us); [discriminate|]. cbn [sym_lookup] in HN. rewrite EG in HN. discriminate.
    - unfold set_chunks. cbn [p_chunks set_strs p_tok p_rest Parser.p_more p_labels p_strs p_symst p_code]. rewrite (kill_id _ FN) by auto. reflexivity. }
  rewrite ES. split; [|repeat split; auto; try lia].
  - constructor; cbn [p_labels p_strs p_symst p_chunks set_strs set_symst]; auto.
    + exists (symt_set base x (mkSym p true)). split; auto. apply base_set; auto.
    + exists cs. auto.
  - intro HNn. cbn [p_symst set_symst]. rewrite lookup_app, HNn. cbn [sym_lookup]. unfold symt_get, symt_set.
    rewrite (get_set _ _ _ good_str) by apply C2. rewrite (proj2 (str_eqb_eq x x)) by auto. reflexivity.
Qed.

(** A local symbol added. *)
Lemma PS_local P FN st g t lower x sc : PS P FN st g (t :: lower) -> (sc = SCOPE_LOCAL \/ sc = SCOPE_AUTO) ->
  exists st', sym_add st x sc = st' /\ PS P FN st' g (symt_set t x (mkSym (psize t) false) :: lower) /\
    p_tok st' = p_tok st /\ p_rest st' = p_rest st /\ p_code st' = p_code st.
Proof.
  intros [A B (base & C1 & C2) (cs & D1 & D2) E] HSc. eexists. split; [reflexivity|]. unfold sym_add.
  replace (match sc with SCOPE_LOCAL => false | SCOPE_GLOBAL => true | SCOPE_AUTO => zlen (p_symst st) =? 1 end) with false.
  2: { destruct HSc as [->| ->]; auto. rewrite C1. cbn [app]. rewrite zlen_cons, zlen_app. change (zlen [base]) with 1. pose proof (zlen_nonneg lower). lia. }
  unfold top. rewrite C1. cbn [app hd tl]. split; [|auto]. constructor; auto; [|exists cs; auto]. exists base. auto.
Qed.
(** Tables pushed and popped. *)
Lemma PS_symst P FN st g us l us' base : PS P FN st g us -> p_symst st = us ++ [base] -> l = us' ++ [base] -> PS P FN (set_symst st l) g us'.
Proof.
  intros [A B (base' & C1 & C2) D E] E1 ->. rewrite E1 in C1. apply app_inj_tail in C1 as [_ <-]. constructor; auto. exists base. auto.
Qed.
Lemma PS_push P FN st g us : PS P FN st g us -> PS P FN (symt_push st) g (symtab_new :: us).
Proof. intro H. destruct (ps_sym _ _ _ _ _ H) as (base & E & _). unfold symt_push. eapply PS_symst; eauto. rewrite E. reflexivity. Qed.
Lemma PS_pop P FN st g u us : PS P FN st g (u :: us) -> PS P FN (symt_pop st) g us.
Proof. intro H. destruct (ps_sym _ _ _ _ _ H) as (base & E & _). unfold symt_pop. eapply PS_symst; eauto. rewrite E. reflexivity. Qed.
Lemma PS_clone P FN st g u us : PS P FN st g (u :: us) ->
  PS P FN (symt_clone st) g (fold_left (fun t e => symt_set t (fst e) (snd e)) (pentries u) symtab_new :: u :: us).
Proof.
  intro H. destruct (ps_sym _ _ _ _ _ H) as (base & E & _). unfold symt_clone. eapply PS_symst; eauto. unfold top. rewrite E. reflexivity.
Qed.
(** The scope of a block. *)
Lemma PS_inner P FN st g us sc : PS P FN st g us -> scope_ok us sc ->
  let st' := if zlen (p_symst st) =? 1 then symt_push st else symt_clone st in
  exists u, PS P FN st' g (u :: us) /\ scope_ok (u :: us) (inner sc) /\ p_tok st' = p_tok st /\ p_rest st' = p_rest st /\ p_code st' = p_code st.
Proof.
  intros H HS st'. destruct (ps_sym _ _ _ _ _ H) as (base & E & _).
  assert (EZ : (zlen (p_symst st) =? 1) = match us with [] => true | _ => false end).
  { rewrite E, zlen_app. change (zlen [base]) with 1. destruct us; [reflexivity|]. rewrite zlen_cons. pose proof (zlen_nonneg us). lia. }
  unfold st'. rewrite EZ. destruct us as [|u us].
  - exists symtab_new. split; [apply PS_push; auto|]. split; [|auto]. destruct sc as [| |l]; cbn [inner scope_ok] in *.
    + split; [discriminate|]. constructor; [apply tab_new_ok|constructor].
    + destruct HS as [HS _]. congruence.
    + destruct HS as (_ & t & lower & HS & _). discriminate.
  - eexists. split; [apply PS_clone; eauto|]. split; [|auto]. destruct sc as [| |l]; cbn [inner scope_ok] in *.
    + discriminate.
    + destruct HS as [_ HS]. split; [discriminate|]. constructor; auto. apply tab_clone_ok. inversion HS; auto.
    + destruct HS as (HF & t & lower & HS & HT & HL). inversion HS; subst. split; auto. do 2 eexists. split; [reflexivity|]. split; [apply tab_clone_ok; auto|].
      constructor; [|auto]. exists l. split; auto. apply incl_refl.
Qed.
Lemma scope_size t us l : scope_ok (t :: us) (Local l) -> psize t = zlen l.
Proof. intros (_ & t' & lower & E & (_ & HS & _) & _). inversion E; subst. exact HS. Qed.
Lemma scope_size0 t us : scope_ok (t :: us) TopBlock -> psize t = 0.
Proof. intros (_ & H). inversion H as [|? ? (_ & HS & _) _]; subst. exact HS. Qed.

(** ** Distinct names *)
Lemma memb_in x l : memb x l = true <-> In x l.
Proof.
  unfold memb. rewrite existsb_exists. split.
  - intros (y & H1 & H2). destruct (list_eq_dec Z.eq_dec x y); [subst; auto|discriminate].
  - intro H. exists x. split; auto. destruct (list_eq_dec Z.eq_dec x x); auto.
Qed.
Lemma distinctb_nodup l : distinctb l = true <-> NoDup l.
Proof.
  induction l as [|x r IH]; cbn [distinctb]; [split; auto; constructor|]. rewrite andb_true_iff, negb_true_iff, IH. split.
  - intros [H1 H2]. constructor; auto. intro H. apply memb_in in H. congruence.
  - intro H. inversion H; subst. split; auto. destruct (memb x r) eqn:E; auto. apply memb_in in E. contradiction.
Qed.
Lemma few_nodup l : few l = true -> NoDup l /\ zlen l < 2 ^ 31.
Proof. unfold few. rewrite andb_true_iff, distinctb_nodup, Z.ltb_lt. auto. Qed.
Lemma few_app_inv a b : few (a ++ b) = true -> few a = true.
Proof.
  unfold few. rewrite !andb_true_iff, !distinctb_nodup, !Z.ltb_lt, zlen_app. intros [H1 H2]. pose proof (zlen_nonneg b). split; [|lia].
  clear H2. induction a as [|y a IH]; [constructor|]. cbn [app] in H1. inversion H1 as [|? ? HN HD]; subst. constructor; auto. intro. apply HN. apply in_or_app. auto.
Qed.
Lemma few_app_notin a x b : few (a ++ x :: b) = true -> ~ In x a.
Proof. intro H. apply few_nodup in H as [H _]. apply NoDup_remove_2 in H. intro HI. apply H. apply in_or_app. auto. Qed.
(** A variable or a parameter added to the scope. *)
Lemma scope_add t us l x : scope_ok (t :: us) (Local l) -> few (l ++ [x]) = true ->
  scope_ok (symt_set t x (mkSym (psize t) false) :: us) (Local (l ++ [x])).
Proof.
  intros (_ & t' & lower & E & HT & HL) HF. inversion E; subst. split; auto. do 2 eexists. split; [reflexivity|]. split.
  - apply tab_add_ok; auto. eapply few_app_notin; eauto.
  - eapply Forall_impl; [|apply HL]. intros u (l' & H1 & H2). exists l'. split; auto. apply incl_appl. auto.
Qed.
