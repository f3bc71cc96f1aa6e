(** More fuel does not change a result of the parser. *)
From Coq Require Import String.
From Verif Require Import Base ListLemmas Dict PDict Strman Text Lex Parser.
Local Open Scope Z_scope. Local Open Scope list_scope.

Definition le_res (a b : pres) : Prop := a <> Hang -> b = a.
Lemma le_refl a : le_res a a. Proof. intro. auto. Qed.
Lemma le_bind a b f g : le_res a b -> (forall st i, le_res (f st i) (g st i)) -> le_res (pbind a f) (pbind b g).
Proof.
  intros H HF HN. unfold pbind in *. destruct a as [[[st i]|]| | |]; try congruence; rewrite H by discriminate; auto. apply HF; auto.
Qed.
Lemma le_fetch st f g : (forall s, le_res (f s) (g s)) -> le_res (fetch st f) (fetch st g).
Proof. intros H. unfold fetch. destruct (next_tok (p_rest st)). destruct (ty st); try apply H. apply le_refl. Qed.
Lemma le_match t st a b : le_res a b -> le_res (tokmatch t st a) (tokmatch t st b).
Proof. intro H. unfold tokmatch. destruct (tok_eqb (ty st) t); [auto|apply le_refl]. Qed.
Lemma le_key st f g : (forall s, le_res (f s) (g s)) -> le_res (table_key st f) (table_key st g).
Proof. intros H. unfold table_key. destruct (ty st); try apply le_refl; try apply H. destruct (string_add _ _). apply H. Qed.

Section Mono.
Variables rec1 rec2 : nt -> pst -> pres.
Hypothesis H : forall x st, le_res (rec1 x st) (rec2 x st).

Ltac le :=
  cbn beta zeta;
  match goal with
  | |- le_res ?a ?a => apply le_refl
  | |- le_res (rec1 _ _) (rec2 _ _) => apply H
  | |- le_res (pbind _ _) (pbind _ _) => apply le_bind; [le|intros; le]
  | |- le_res (fetch _ _) (fetch _ _) => apply le_fetch; intros; le
  | |- le_res (tokmatch _ _ _) (tokmatch _ _ _) => apply le_match; le
  | |- le_res (table_key _ _) (table_key _ _) => apply le_key; intros; le
  | |- le_res (if ?c then _ else _) _ => destruct c; le
  | |- le_res (match ?c with _ => _ end) _ => destruct c; le
  end.
Lemma body_mono x st : le_res (body rec1 x st) (body rec2 x st).
Proof. destruct x; cbn [body]; unfold op_loop; le. Qed.
End Mono.

Lemma parse_more n : forall x st, le_res (parse n x st) (parse (S n) x st).
Proof.
  induction n as [|n IH]; intros x st; [intros []; reflexivity|]. change (parse (S (S n)) x st) with (body (parse (S n)) x st).
  change (parse (S n) x st) with (body (parse n) x st). apply body_mono. exact IH.
Qed.
Lemma parse_mono n k x st r : (n <= k)%nat -> parse n x st = r -> r <> Hang -> parse k x st = r.
Proof. intros HL E HR. induction HL; auto. rewrite <- IHHL. apply parse_more. congruence. Qed.
