(** The comparison tokens of the lexer are the six comparisons. *)
From Coq Require Import String.
From Verif Require Import Base ListLemmas Dict Text Lex Parser ParserTotal.
Local Open Scope Z_scope. Local Open Scope list_scope.

Lemma not_cmp t : t_type t <> TOK_CMP -> good_tok t.
Proof. unfold good_tok. congruence. Qed.
Lemma keyword_not_cmp v ty : keyword v = Some ty -> ty <> TOK_CMP.
Proof.
  unfold keyword. destruct (find _ keywords) as [e|] eqn:E; [|discriminate]. intro H. inversion H; subst. apply find_some in E. destruct E as [E _].
  cbn [keywords In] in E. repeat (destruct E as [<-|E]; [discriminate|]). destruct E.
Qed.
Lemma single_not_cmp c ty : single c = Some ty -> ty <> TOK_CMP.
Proof. unfold single. intros H E. subst. repeat (destruct (c =? _); [discriminate|]). discriminate. Qed.
Lemma arith_not_cmp c ty : arith_type c = Some ty -> ty <> TOK_CMP.
Proof. unfold arith_type. intros H E. subst. repeat (match type of H with (if ?b then _ else _) = _ => destruct b end; [discriminate|]). discriminate. Qed.
Lemma lex_token_good f c r t f2 : lex_token f c r = Ok (t, f2) -> good_tok t.
Proof.
  unfold lex_token. intro H.
  destruct (c =? NL); [inversion H; apply not_cmp; discriminate|].
  destruct (single c) as [ty|] eqn:ES; [inversion H; apply not_cmp; cbn; eapply single_not_cmp; eauto|].
  destruct (isdigit c); [inversion H; apply not_cmp; discriminate|].
  destruct (isalpha c). { inversion H. apply not_cmp. cbn [t_type]. destruct (keyword _) eqn:EK; [eapply keyword_not_cmp; eauto|discriminate]. }
  destruct (c =? 61). { destruct r as [|d r1]; [|destruct (d =? 61)]; inversion H; intro; vm_compute; discriminate. }
  destruct (c =? 33). { destruct r as [|d r1]; [|destruct (d =? 61)]; inversion H; intro; vm_compute; discriminate. }
  destruct ((c =? 60) || (c =? 62)) eqn:EC.
  { apply orb_prop in EC. rewrite !Z.eqb_eq in EC.
    destruct r as [|d r1]; [inversion H; intro; destruct EC; subst; vm_compute; discriminate|].
    destruct (d =? c); [inversion H; apply not_cmp; discriminate|].
    destruct (d =? 61) eqn:ED; inversion H; intro; [apply Z.eqb_eq in ED|]; destruct EC; subst; vm_compute; discriminate. }
  destruct (arith_type c) eqn:EA; [inversion H; apply not_cmp; cbn; eapply arith_not_cmp; eauto|].
  destruct (isquote c); [|inversion H; apply not_cmp; discriminate].
  destruct (find_quote c 0 0 r) as [a b]. destruct b; [inversion H; apply not_cmp; discriminate|].
  destruct (newstring _ _); cbn [bind] in H; inversion H. apply not_cmp; discriminate.
Qed.
Lemma nexttok_good open n : forall lx t lx2, nexttok open n lx = Ok (t, lx2) -> good_tok t.
Proof.
  assert (HE : good_tok eoftok) by (apply not_cmp; discriminate).
  induction n as [|n IH]; intros lx t lx2 H; cbn [nexttok] in H; [discriminate|]. destruct lx as [|f fs]; [discriminate|].
  assert (HP : forall t lx2, match fs with [] => Ok (eoftok, []) | _ => nexttok open n fs end = Ok (t, lx2) -> good_tok t).
  { intros t0 l0 HP. destruct fs; [inversion HP; subst; auto|eauto]. }
  destruct (lf_rest _) as [|c r]; [eauto|]. destruct (c =? 35).
  - destruct (drop_while _ r); eauto.
  - destruct (after_prefix _ _) as [r1|].
    + destruct (include_name _) as [f2 [nm|]]; [|inversion H; subst; auto]. destruct (file_new open nm); [|inversion H; subst; auto].
      destruct (existsb _ _); eauto.
    + match type of H with (_ <- ?e ;; _) = _ => destruct e as [[t0 f2]| | |] eqn:E end; cbn [bind] in H; inversion H; subst. eapply lex_token_good; eauto.
Qed.
Lemma all_good open n : forall lx ts lx2, all_tokens open n lx = Ok (ts, lx2) -> Forall good_tok ts.
Proof.
  induction n as [|n IH]; intros lx ts lx2 H; [discriminate|].
  remember (S n) as k. assert (HK : all_tokens open k lx = Ok (ts, lx2)) by exact H. rewrite Heqk in H. cbn [all_tokens] in H. rewrite <- Heqk in H.
  destruct (nexttok open k lx) as [[t l1]| | |] eqn:E; cbn [bind] in H; try discriminate.
  assert (HT : t_type t = TOK_EOF /\ ts = [] \/ exists ts1, ts = t :: ts1 /\ all_tokens open n l1 = Ok (ts1, lx2)).
  { destruct (all_tokens open n l1) as [[ts1 l2]| | |]; cbn [bind] in H; destruct (t_type t) eqn:ET; inversion H; eauto. }
  destruct HT as [[_ ->]|[ts1 [-> HR]]]; [constructor|]. constructor; [eapply nexttok_good; eauto|eauto].
Qed.
