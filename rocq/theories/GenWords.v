(** The strings of the code of Gen.v are the words of the script. *)
From Verif Require Import Base ListLemmas Dict Strman Text Instr AsmSpec Source CompileSpec Gen GenExt.
Local Open Scope Z_scope. Local Open Scope list_scope.

Definition Wok (g g' : gst) (ws : list str) : Prop := (NoDup (g_strs g) -> NoDup (g_strs g')) /\ forall x, In x (g_strs g') <-> In x (g_strs g) \/ In x ws.
Lemma Wok_refl g : Wok g g [].
Proof. split; auto. intro x. cbn. tauto. Qed.
Lemma Wok_seq g g1 g2 a b : Wok g g1 a -> Wok g1 g2 b -> Wok g g2 (a ++ b).
Proof. intros [N1 H1] [N2 H2]. split; auto. intro x. rewrite H2, H1, in_app_iff. tauto. Qed.
Lemma index_in x l : (exists i, index x l = Some i) <-> In x l.
Proof.
  induction l as [|y l IH]; cbn [index In]; [split; [intros [i H]; discriminate|intros []]|]. unfold same. destruct (list_eq_dec Z.eq_dec x y) as [->|N]; [split; eauto|].
  rewrite <- IH. split.
  - destruct (index x l) eqn:E; [eauto|]. intros [i H]. discriminate.
  - intros [H|[i ->]]; [congruence|eauto].
Qed.
Lemma index_none x l : index x l = None <-> ~ In x l.
Proof. rewrite <- index_in. destruct (index x l); split; try congruence; [intro H; exfalso; apply H; eauto|intros _ [i H]; discriminate]. Qed.
Lemma NoDup_snoc {A} (l : list A) x : NoDup l -> ~ In x l -> NoDup (l ++ [x]).
Proof. intros H N. rewrite <- (rev_involutive (l ++ [x])). apply NoDup_rev. rewrite rev_app_distr. constructor; [rewrite <- in_rev; auto|apply NoDup_rev; auto]. Qed.
Lemma Wok_addstr g s : Wok g (snd (addstr g s)) [s].
Proof.
  unfold addstr. destruct (index s (g_strs g)) eqn:E; cbn [snd].
  - assert (HI : In s (g_strs g)) by (apply index_in; eauto). split; auto. intro x. cbn. split; [auto|]. intros [H|[<-|[]]]; auto.
  - apply index_none in E. split; [intro; cbn; apply NoDup_snoc; auto|]. intro x. cbn [g_strs]. rewrite in_app_iff. tauto.
Qed.
Lemma memb_in x l : memb x l = true <-> In x l.
Proof.
  unfold memb. rewrite existsb_exists. split; [intros (y & HI & H); destruct (list_eq_dec Z.eq_dec x y); [subst; auto|discriminate]|].
  intro H. exists x. split; auto. destruct (list_eq_dec Z.eq_dec x x); congruence.
Qed.
Lemma slot_name sc x : global_name sc x = match slot sc x with Some _ => [] | None => [x] end.
Proof.
  destruct sc as [| |l]; try reflexivity. cbn [global_name slot]. destruct (memb x l) eqn:E.
  - apply memb_in, index_in in E as [i ->]. reflexivity.
  - destruct (index x l) eqn:EI; auto. assert (HI : memb x l = true) by (apply memb_in, index_in; eauto). congruence.
Qed.
Lemma Wok_load sc x g : Wok g (snd (gen_load sc x g)) (global_name sc x).
Proof. rewrite slot_name. unfold gen_load. destruct (slot sc x); [apply Wok_refl|]. pose proof (Wok_addstr g x). destruct (addstr g x). exact H. Qed.
Lemma Wok_strs g g0 g1 g2 a : g_strs g0 = g_strs g -> g_strs g2 = g_strs g1 -> Wok g0 g1 a -> Wok g g2 a.
Proof. intros E1 E2 [N H]. split; [rewrite <- E1, E2; auto|]. intro x. rewrite E2, H, E1. tauto. Qed.
Lemma Wok_lab g g' k a : Wok (labels g k) g' a -> Wok g g' a. Proof. apply Wok_strs; reflexivity. Qed.

Ltac wstep :=
  match goal with
  | |- context [gen_e ?sc ?e ?c ?g] => let H := fresh "G" in assert (H : Wok g (snd (gen_e sc e c g)) (words_e sc e)) by auto; destruct (gen_e sc e c g); cbn [snd] in H
  | |- context [gen_es ?sc ?e ?g] => let H := fresh "G" in assert (H : Wok g (snd (gen_es sc e g)) (words_es sc e)) by auto; destruct (gen_es sc e g); cbn [snd] in H
  | |- context [gen_f ?sc ?e ?g] => let H := fresh "G" in assert (H : Wok g (snd (gen_f sc e g)) (words_f sc e)) by auto; destruct (gen_f sc e g); cbn [snd] in H
  | |- context [gen_s ?sc ?e ?g] => let H := fresh "G" in assert (H : Wok g (snd (gen_s sc e g)) (words_s sc e)) by auto; destruct (gen_s sc e g); cbn [snd] in H
  | |- context [gen_b ?sc ?e ?g] => let H := fresh "G" in assert (H : Wok g (snd (gen_b sc e g)) (words_b sc e)) by auto; destruct (gen_b sc e g); cbn [snd] in H
  | |- context [gen_ss ?sc ?e ?g] => let H := fresh "G" in assert (H : Wok g (snd (gen_ss sc e g)) (words_ss sc e)) by auto; destruct (gen_ss sc e g); cbn [snd] in H
  | |- context [gen_load ?sc ?x ?g] => let H := fresh "G" in pose proof (Wok_load sc x g) as H; destruct (gen_load sc x g); cbn [snd] in H
  | |- context [addstr ?g ?x] => let H := fresh "G" in pose proof (Wok_addstr g x) as H; destruct (addstr g x); cbn [snd] in H
  end.
Ltac wseq := first [eassumption | eapply Wok_seq; [eassumption|]; wseq].
Lemma gen_words :
  (forall e sc c g, Wok g (snd (gen_e sc e c g)) (words_e sc e)) /\ (forall l sc g, Wok g (snd (gen_es sc l g)) (words_es sc l)) /\
  (forall l sc g, Wok g (snd (gen_f sc l g)) (words_f sc l)) /\ (forall s sc g, Wok g (snd (gen_s sc s g)) (words_s sc s)) /\
  (forall b sc g, Wok g (snd (gen_b sc b g)) (words_b sc b)) /\ (forall l sc g, Wok g (snd (gen_ss sc l g)) (words_ss sc l)).
Proof.
  apply ast_ind; intros; cbn [gen_e gen_es gen_f gen_s gen_b gen_ss words_e words_es words_f words_s words_b words_ss] in *; try (apply Wok_refl);
    try (repeat wstep; cbn [fst snd]; wseq; fail).
  - destruct sc; repeat wstep; cbn [snd declared_name]; first [apply Wok_refl|wseq].
  - destruct sc; repeat wstep; cbn [snd declared_name]; wseq.
  - rewrite slot_name. destruct (slot sc x); repeat wstep; cbn [snd]; wseq.
  - wstep. cbn [snd]. wstep. cbn [snd]. apply (Wok_seq g g1 _ [name]); auto.
Qed.
Lemma script_words l : let strs := g_strs (snd (gen_script l)) in NoDup strs /\ (forall x, In x strs <-> In x (words l)) /\ zlen strs = zlen (nodup (list_eq_dec Z.eq_dec) (words l)).
Proof.
  assert (H : Wok (mkG 1 [] []) (snd (gen_script l)) (words l)) by apply gen_words. destruct H as [N H]. cbn zeta. specialize (N (NoDup_nil _)).
  assert (HI : forall x, In x (g_strs (snd (gen_script l))) <-> In x (words l)) by (intro x; rewrite H; cbn; tauto). split; auto. split; auto.
  unfold zlen. f_equal. apply Nat.le_antisymm; apply NoDup_incl_length; auto using NoDup_nodup.
  - intros x Hx. apply nodup_In, HI. auto.
  - intros x Hx. apply nodup_In, HI in Hx. auto.
Qed.
