(** The lexer always finishes. *)
From Coq Require Import String.
From Verif Require Import Base ListLemmas Dict DictProofs Text TextProofs Lex LexSpec LexProofs.
Local Open Scope Z_scope. Local Open Scope list_scope.

Ltac Zify.zify_post_hook ::= idtac.

Lemma drop_le f (s : list Z) : (length (drop_while f s) <= length s)%nat.
Proof. induction s as [|c s IH]; cbn [drop_while]; auto. destruct (f c); cbn [length]; lia. Qed.
Lemma find_quote_split q s : forall l1 l2 a b, find_quote q l1 l2 s = (a, b) -> s = a ++ b.
Proof.
  induction s as [|c s IH]; intros l1 l2 a b H; cbn [find_quote] in H; [inversion H; auto|].
  destruct (negb (c =? q) || (l1 =? BSL) && negb (l2 =? BSL)); [|inversion H; auto].
  destruct (find_quote q c l1 s) as [a1 b1] eqn:E. inversion H; subst. cbn. f_equal. eauto.
Qed.
Lemma newstring_cases n : forall s, (exists v, newstring n s = Ok v) \/ newstring n s = UB.
Proof.
  induction n as [|n IH]; intro s; cbn [newstring]; eauto. destruct s as [|c r]; eauto. destruct (c =? BSL).
  - destruct r as [|d r]; eauto. destruct (IH r) as [[v ->]| ->]; cbn [bind]; eauto.
  - destruct (IH r) as [[v ->]| ->]; cbn [bind]; eauto.
Qed.
Lemma newstring_defined n : forall s, ~ In BSL s -> (n <= length s)%nat -> exists v, newstring n s = Ok v.
Proof.
  induction n as [|n IH]; intros s HB HL; cbn [newstring]; eauto. destruct s as [|c r]; [cbn in HL; lia|].
  replace (c =? BSL) with false. 2: { symmetry. apply Z.eqb_neq. intros ->. apply HB. left. auto. }
  destruct (IH r) as [v ->]; [intro; apply HB; right; auto|cbn in HL; lia|]. cbn. eauto.
Qed.

(** What is left of a file after a token is shorter and comes from the same file. *)
Definition suffix (a b : list Z) : Prop := exists p, b = p ++ a.
Lemma suffix_refl a : suffix a a. Proof. exists []. auto. Qed.
Lemma suffix_trans a b c : suffix a b -> suffix b c -> suffix a c.
Proof. intros [p ->] [q ->]. exists (q ++ p). rewrite app_assoc. auto. Qed.
Lemma suffix_cons x a b : suffix (x :: a) b -> suffix a b.
Proof. intros [p ->]. exists (p ++ [x]). rewrite <- app_assoc. auto. Qed.
Lemma suffix_drop f s : suffix (drop_while f s) s.
Proof. induction s as [|c s IH]; cbn [drop_while]; [apply suffix_refl|]. destruct (f c); [|apply suffix_refl]. destruct IH as [p E]. exists (c :: p). rewrite E at 1. auto. Qed.
Lemma suffix_in a b x : suffix a b -> In x a -> In x b.
Proof. intros [p ->] H. apply in_or_app. auto. Qed.
Lemma suffix_len a b : suffix a b -> (length a <= length b)%nat.
Proof. intros [p ->]. rewrite app_length. lia. Qed.

Lemma lex_token_shrinks f c r : lf_rest f = c :: r ->
  (exists t f2, lex_token f c r = Ok (t, f2) /\ lf_name f2 = lf_name f /\ suffix (lf_rest f2) r) \/ (lex_token f c r = UB /\ In BSL r).
Proof.
  intro HR. unfold lex_token.
  assert (HX : forall (t : token) g, lf_name g = lf_name f -> suffix (lf_rest g) r -> (exists t0 f2, Ok (t, g) = Ok (t0, f2) /\ lf_name f2 = lf_name f /\ suffix (lf_rest f2) r) \/ (@Ok (token * lexfile) (t, g) = UB /\ In BSL r)) by (intros; left; eauto).
  destruct (c =? NL); [apply HX; auto; apply suffix_refl|].
  destruct (single c); [apply HX; auto; apply suffix_refl|].
  destruct (isdigit c); [apply HX; auto; apply suffix_drop|].
  destruct (isalpha c); [apply HX; auto; apply suffix_drop|].
  assert (HD : forall d (r1 : list Z), r = d :: r1 -> suffix r1 r) by (intros d r1 ->; exists [d]; auto).
  destruct (c =? 61); [destruct r as [|d r1]; [|destruct (d =? 61)]; apply HX; auto; try apply suffix_refl; eapply HD; reflexivity|].
  destruct (c =? 33); [destruct r as [|d r1]; [|destruct (d =? 61)]; apply HX; auto; try apply suffix_refl; eapply HD; reflexivity|].
  destruct ((c =? 60) || (c =? 62)); [destruct r as [|d r1]; [|destruct (d =? c); [|destruct (d =? 61)]]; apply HX; auto; try apply suffix_refl; eapply HD; reflexivity|].
  destruct (arith_type c); [apply HX; auto; apply suffix_refl|].
  destruct (isquote c); [|apply HX; auto; apply suffix_refl].
  destruct (find_quote c 0 0 r) as [a b] eqn:E. pose proof (find_quote_split _ _ _ _ _ _ E) as HS.
  destruct b as [|q b]; [apply HX; auto; cbn [lf_rest advance]; exists r; rewrite app_nil_r; auto|].
  destruct (newstring_cases (length a) (r ++ [0])) as [[v HV]|HV]; rewrite HV; cbn [bind].
  - apply HX; auto. cbn [lf_rest advance]. exists (a ++ [q]). rewrite HS, <- app_assoc. reflexivity.
  - right. split; auto. destruct (in_dec Z.eq_dec BSL r) as [H|H]; auto. exfalso.
    destruct (newstring_defined (length a) (r ++ [0])) as [v HV2]; [intro HI; apply in_app_or in HI; destruct HI as [HI|[HI|[]]]; [auto|discriminate HI]| |congruence].
    rewrite HS, !app_length. lia.
Qed.
Lemma include_shrinks f : forall g nm, include_name f = (g, nm) -> lf_name g = lf_name f /\ suffix (lf_rest g) (lf_rest f).
Proof.
  intros g nm. unfold include_name. cbn [lf_rest advance].
  pose proof (suffix_drop lex_isspace (lf_rest f)) as HS. destruct (drop_while lex_isspace (lf_rest f)) as [|q r] eqn:E.
  - intro H; inversion H; subst. cbn [lf_name lf_rest advance]. auto.
  - destruct (isquote q). 2: { intro H; inversion H; subst. cbn [lf_name lf_rest advance]. auto. }
    pose proof (suffix_drop (fun c => negb ((c =? q) || (c =? NL))) r) as HS2. destruct (drop_while _ r) as [|d r1] eqn:E2.
    + intro H; inversion H; subst. cbn [lf_name lf_rest advance]. split; auto. eapply suffix_trans; [exact HS2|]. eapply suffix_cons. exact HS.
    + destruct (d =? NL); intro H; inversion H; subst; cbn [lf_name lf_rest advance]; split; auto.
      * eapply suffix_trans; [exact HS2|]. eapply suffix_cons. exact HS.
      * eapply suffix_trans; [eapply suffix_cons; exact HS2|]. eapply suffix_cons. exact HS.
Qed.

Section Total.
Variable open : list Z -> option (list Z * list Z).
(** The files there are, and the length of the longest one. *)
Variable files : list (list Z).
Variable L : nat.
Hypothesis finite : forall name p t, open name = Some (p, t) -> In p files /\ (length t <= L)%nat.
Notation nexttok := (nexttok open).
Notation all_tokens := (all_tokens open).

Fixpoint C (k : nat) : nat := match k with O => 1 | S j => 1 + (L + 2) * C j end.
Lemma C_pos k : (1 <= C k)%nat.
Proof. destruct k; cbn [C]; lia. Qed.
(** Work left: [k] files are not on the stack. *)
Definition cost (k : nat) (f : lexfile) : nat := (length (lf_rest f) + 1) * C k.
Fixpoint work (lx : lexer) : nat :=
  match lx with
  | [] => 0
  | f :: fs => cost (length files - length lx) f + work fs
  end.
Definition fit (lx : lexer) : Prop := NoDup (map lf_name lx) /\ incl (map lf_name lx) files.
Definition clean (lx : lexer) : Prop := Forall (fun f => ~ In BSL (lf_rest f)) lx.

Lemma fit_replace f g fs : fit (f :: fs) -> lf_name g = lf_name f -> fit (g :: fs).
Proof. intros [H1 H2] HN. unfold fit. cbn [map] in *. rewrite HN. auto. Qed.
Lemma fit_pop f fs : fit (f :: fs) -> fit fs.
Proof. intros [H1 H2]. cbn [map] in *. inversion H1. split; auto. intros y Hy. apply H2. right. auto. Qed.
Lemma work_less f g fs : (length (lf_rest g) < length (lf_rest f))%nat -> (work (g :: fs) < work (f :: fs))%nat.
Proof. intro H. cbn [work length]. unfold cost. pose proof (C_pos (length files - S (length fs))). nia. Qed.
Lemma work_pop f fs : (work fs < work (f :: fs))%nat.
Proof. cbn [work length]. unfold cost. pose proof (C_pos (length files - S (length fs))). nia. Qed.
Lemma fit_length lx : fit lx -> (length lx <= length files)%nat.
Proof. intros [H1 H2]. rewrite <- (map_length lf_name). apply NoDup_incl_length; auto. Qed.
Lemma work_push f h g fs : fit (g :: h :: fs) -> (length (lf_rest g) <= L + 1)%nat -> (length (lf_rest h) < length (lf_rest f))%nat ->
  (work (g :: h :: fs) < work (f :: fs))%nat.
Proof.
  intros HF HG HH. pose proof (fit_length _ HF) as HL. cbn [work length] in *. unfold cost.
  replace (length files - S (length fs))%nat with (S (length files - S (S (length fs))))%nat by lia. set (k := (length files - S (S (length fs)))%nat). cbn [C].
  pose proof (C_pos k). nia.
Qed.

Definition no_hang {A} (r : res A) (P : A -> Prop) (ub : Prop) : Prop :=
  match r with Ok a => P a | UB => ub | _ => False end.

Lemma nexttok_total n : forall lx, lx <> [] -> fit lx -> (work lx < n)%nat ->
  no_hang (nexttok n lx) (fun r => t_type (fst r) = TOK_EOF \/ ((work (snd r) < work lx)%nat /\ fit (snd r) /\ snd r <> [] ))
    (exists f, (In f lx \/ exists name p t, open name = Some (p, t) /\ lf_rest f = t ++ [NL]) /\ In BSL (lf_rest f)) /\
  (forall t lx2, nexttok n lx = Ok (t, lx2) -> forall g, In g lx2 -> exists f, (In f lx \/ exists name p t, open name = Some (p, t) /\ lf_rest f = t ++ [NL]) /\ suffix (lf_rest g) (lf_rest f)).
Proof.
  induction n as [|n IH]; intros lx HE HF HW; [lia|]. destruct lx as [|f fs]; [congruence|]. clear HE.
  set (src := fun lx (f : lexfile) => In f lx \/ exists name p t, open name = Some (p, t) /\ lf_rest f = t ++ [NL]).
  (* going on with another state *)
  assert (HGO : forall lx2, lx2 <> [] -> fit lx2 -> (work lx2 < work (f :: fs))%nat -> (forall g, In g lx2 -> exists h, src (f :: fs) h /\ suffix (lf_rest g) (lf_rest h)) ->
    no_hang (nexttok n lx2) (fun r => t_type (fst r) = TOK_EOF \/ ((work (snd r) < work (f :: fs))%nat /\ fit (snd r) /\ snd r <> []))
      (exists h, src (f :: fs) h /\ In BSL (lf_rest h)) /\
    (forall t lx3, nexttok n lx2 = Ok (t, lx3) -> forall g, In g lx3 -> exists h, src (f :: fs) h /\ suffix (lf_rest g) (lf_rest h))).
  { intros lx2 H1 H2 H3 H4. destruct (IH lx2 H1 H2 ltac:(lia)) as [A B].
    assert (HS : forall h, src lx2 h -> exists h2, src (f :: fs) h2 /\ suffix (lf_rest h) (lf_rest h2)).
    { intros h [Hh|Hh]; [auto|]. exists h. split; [right; auto|apply suffix_refl]. }
    split.
    - destruct (nexttok n lx2) as [[t lx3]| | |]; cbn [no_hang fst snd] in *; auto.
      + destruct A as [A|[A1 [A2 A3]]]; auto. right. repeat split; auto; try apply A2. lia.
      + destruct A as [h [Hh HB]]. destruct (HS h Hh) as [h2 [A1 A2]]. exists h2. split; auto. eapply suffix_in; eauto.
    - intros t lx3 HN g Hg. destruct (B t lx3 HN g Hg) as [h [Hh HB]]. destruct (HS h Hh) as [h2 [A1 A2]]. exists h2. split; auto. eapply suffix_trans; eauto. }
  (* a final token *)
  assert (HFIN : forall t lx2, t_type t = TOK_EOF -> (forall g, In g lx2 -> exists h, src (f :: fs) h /\ suffix (lf_rest g) (lf_rest h)) ->
    no_hang (Ok (t, lx2)) (fun r => t_type (fst r) = TOK_EOF \/ ((work (snd r) < work (f :: fs))%nat /\ fit (snd r) /\ snd r <> []))
      (exists h, src (f :: fs) h /\ In BSL (lf_rest h)) /\
    (forall t0 lx3, Ok (t, lx2) = Ok (t0, lx3) -> forall g, In g lx3 -> exists h, src (f :: fs) h /\ suffix (lf_rest g) (lf_rest h))).
  { intros t lx2 H1 H2. split; [left; auto|]. intros t0 lx3 H. inversion H; subst. auto. }
  assert (Hfs : forall g, In g fs -> exists h, src (f :: fs) h /\ suffix (lf_rest g) (lf_rest h)).
  { intros g Hg. exists g. split; [left; right; auto|apply suffix_refl]. }
  assert (Hf : src (f :: fs) f) by (left; left; auto).
  cbn [Lex.nexttok]. set (f1 := advance f (take_while lex_isspace (lf_rest f)) (drop_while lex_isspace (lf_rest f))).
  assert (HS1 : suffix (lf_rest f1) (lf_rest f)) by apply suffix_drop.
  assert (HN1 : lf_name f1 = lf_name f) by reflexivity. clearbody f1.
  assert (HPOP : no_hang (match fs with [] => Ok (eoftok, []) | _ => nexttok n fs end) (fun r => t_type (fst r) = TOK_EOF \/ ((work (snd r) < work (f :: fs))%nat /\ fit (snd r) /\ snd r <> []))
      (exists h, src (f :: fs) h /\ In BSL (lf_rest h)) /\
    (forall t lx2, match fs with [] => Ok (eoftok, []) | _ => nexttok n fs end = Ok (t, lx2) -> forall g, In g lx2 -> exists h, src (f :: fs) h /\ suffix (lf_rest g) (lf_rest h))).
  { destruct fs as [|f2 fs]; [apply HFIN; [reflexivity|intros g []]|]. apply HGO; auto; [discriminate|eapply fit_pop; eauto|apply work_pop]. }
  destruct (lf_rest f1) as [|c r] eqn:E1; [exact HPOP|].
  assert (HL1 : (S (length r) <= length (lf_rest f))%nat) by (apply suffix_len in HS1; exact HS1).
  (* files after f1 *)
  assert (HREP : forall g, lf_name g = lf_name f -> suffix (lf_rest g) r -> fit (g :: fs) /\ (work (g :: fs) < work (f :: fs))%nat /\
      (forall x, In x (g :: fs) -> exists h, src (f :: fs) h /\ suffix (lf_rest x) (lf_rest h))).
  { intros g H1 H2. assert (H3 : suffix (lf_rest g) (lf_rest f)) by (eapply suffix_trans; [exact H2|]; eapply suffix_cons; exact HS1).
    repeat split; [apply (fit_replace f); auto|apply (fit_replace f); auto|apply work_less; apply suffix_len in H2; lia|]. intros x [<-|Hx]; eauto. }
  destruct (c =? 35).
  - pose proof (suffix_drop (fun c => negb (c =? NL)) r) as HS2. destruct (drop_while (fun c => negb (c =? NL)) r) as [|d r1]; [exact HPOP|].
    destruct (HREP (newline f1 r1)) as [A [B C0]]; auto. { eapply suffix_cons. exact HS2. } apply HGO; auto. discriminate.
  - destruct (after_prefix INCLUDE (c :: r)) as [r1|] eqn:EP.
    + apply after_prefix_app in EP.
      destruct (include_name (advance f1 INCLUDE r1)) as [f2 nm] eqn:EI. destruct (include_shrinks _ _ _ EI) as [N2 S2]. cbn [lf_name lf_rest advance] in N2, S2.
      assert (SR : suffix r1 r). { change INCLUDE with ([105] ++ bs "nclude") in EP. cbn [app] in EP. inversion EP. exists (bs "nclude"). auto. }
      destruct (HREP f2) as [A [B C0]]; [congruence|eapply suffix_trans; eauto|].
      destruct nm as [nm|]; [|apply HFIN; auto]. unfold file_new. destruct (open nm) as [[p t]|] eqn:EO; [|apply HFIN; auto].
      cbn [lf_name]. destruct (finite _ _ _ EO) as [HP HT]. destruct (existsb _ _) eqn:EX.
      * apply HGO; auto. discriminate.
      * assert (HFIT : fit (mkLf p 1 0 (t ++ [NL]) :: f2 :: fs)).
        { destruct A as [A1 A2]. split.
          - cbn [map lf_name]. constructor; auto. intro HI.
            change (lf_name f2 :: map lf_name fs) with (map lf_name (f2 :: fs)) in HI. apply in_map_iff in HI. destruct HI as [h [H1 H2]].
            assert (existsb (fun h => strcmp (lf_name h) p =? 0) (f2 :: fs) = true). { apply existsb_exists. exists h. split; auto. rewrite H1, strcmp_refl. auto. } congruence.
          - intros x [<-|Hx]; auto. }
        apply HGO; auto; [discriminate| |].
        { apply work_push; auto. cbn [lf_rest]. rewrite app_length. cbn. lia. apply suffix_len in S2. apply suffix_len in SR. lia. }
        intros x [<-|Hx]; auto. eexists. split; [right; exists nm, p, t; split; [exact EO|]|apply suffix_refl]. reflexivity.
    + destruct (lex_token_shrinks f1 c r E1) as [[t [f2 [HT [N2 S2]]]]|[HT HB]]; rewrite HT; cbn [bind].
      * destruct (HREP f2) as [A [B C0]]; [congruence|auto|]. split; [right; repeat split; auto; try apply A; discriminate|].
        intros t0 lx2 H. inversion H; subst. auto.
      * split; [|discriminate]. exists f. split; auto. eapply suffix_in; [|exact HB]. eapply suffix_cons. exact HS1.
Qed.

Lemma tokens_total n : forall lx, lx <> [] -> fit lx -> (work lx < n)%nat ->
  no_hang (all_tokens n lx) (fun _ => True) (exists f, (In f lx \/ exists name p t, open name = Some (p, t) /\ lf_rest f = t ++ [NL]) /\ In BSL (lf_rest f)).
Proof.
  induction n as [|n IH]; intros lx HE HF HW; [lia|]. destruct (nexttok_total (S n) lx HE HF HW) as [A B].
  remember (S n) as m. rewrite Heqm. cbn [Lex.all_tokens]. rewrite <- Heqm. destruct (nexttok m lx) as [[t lx2]| | |]; cbn [no_hang bind fst snd] in *; auto.
  destruct A as [A|[A1 [A2 A3]]]. { rewrite A. exact I. }
  specialize (IH lx2 A3 A2 ltac:(lia)).
  assert (HX : no_hang ('(ts, lx3) <- all_tokens n lx2 ;; Ok (t :: ts, lx3)) (fun _ => True) (exists f, (In f lx \/ exists name p t, open name = Some (p, t) /\ lf_rest f = t ++ [NL]) /\ In BSL (lf_rest f))).
  { destruct (all_tokens n lx2) as [[ts lx3]| | |]; cbn [no_hang bind] in *; auto. destruct IH as [f [[Hf|Hf] HB]].
    - destruct (B t lx2 eq_refl f Hf) as [h [Hh HS]]. exists h. split; auto. eapply suffix_in; eauto.
    - exists f. auto. }
  destruct (t_type t); auto; exact I.
Qed.
End Total.
