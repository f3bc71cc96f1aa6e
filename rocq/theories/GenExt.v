(** The code generator of Gen.v only adds strings, labels and functions. *)
From Coq Require Import String.
From Verif Require Import Base ListLemmas Dict Strman Text Instr AsmSpec Source Gen.
Local Open Scope Z_scope. Local Open Scope list_scope.

Scheme expr_m := Induction for expr Sort Prop with exprs_m := Induction for exprs Sort Prop with fields_m := Induction for fields Sort Prop
  with stat_m := Induction for stat Sort Prop with body_m := Induction for body Sort Prop with stats_m := Induction for stats Sort Prop.
Combined Scheme ast_ind from expr_m, exprs_m, fields_m, stat_m, body_m, stats_m.

Definition ext (g g' : gst) : Prop :=
  (exists l, g_strs g' = g_strs g ++ l) /\ g_lab g <= g_lab g' /\ (exists l, g_chunks g' = g_chunks g ++ l).
Lemma ext_refl g : ext g g.
Proof. split; [exists []; rewrite app_nil_r; auto|]. split; [lia|]. exists []. rewrite app_nil_r. auto. Qed.
Lemma ext_trans a b c : ext a b -> ext b c -> ext a c.
Proof.
  intros ((l & H1) & H2 & l3 & H3) ((l' & H1') & H2' & l3' & H3'). split; [|split].
  - exists (l ++ l'). rewrite H1', H1, app_assoc. auto.
  - lia.
  - exists (l3 ++ l3'). rewrite H3', H3, app_assoc. auto.
Qed.
Lemma ext_addstr g s : ext g (snd (addstr g s)).
Proof.
  unfold addstr. destruct (index s (g_strs g)); [apply ext_refl|]. cbn [snd]. split; [eexists; reflexivity|]. split; [cbn; lia|]. exists []. cbn. rewrite app_nil_r. auto.
Qed.
Lemma ext_labels g k : 0 <= k -> ext g (labels g k).
Proof. intro. split; [exists []; cbn; rewrite app_nil_r; auto|]. split; [cbn; lia|]. exists []. cbn. rewrite app_nil_r. auto. Qed.
Lemma ext_load sc x g : ext g (snd (gen_load sc x g)).
Proof. unfold gen_load. destruct (slot sc x); [apply ext_refl|]. pose proof (ext_addstr g x). destruct (addstr g x). exact H. Qed.
Lemma ext_fun n g g1 c : n = g_lab g -> ext (mkG (n + 1) (g_strs g) []) g1 -> ext g (mkG (g_lab g1) (g_strs g1) (g_chunks g ++ c :: g_chunks g1)).
Proof. intros -> (H1 & H2 & H3). cbn in *. split; auto. split; [cbn; lia|]. eexists. reflexivity. Qed.

Lemma ext_lab2 g g' : ext (labels g 2) g' -> ext g g'. Proof. apply ext_trans, ext_labels. lia. Qed.
Lemma ext_lab4 g g' : ext (labels g 4) g' -> ext g g'. Proof. apply ext_trans, ext_labels. lia. Qed.
Ltac step :=
  match goal with
  | |- context [gen_e ?sc ?e ?c ?g] => let H := fresh "H" in assert (H : ext g (snd (gen_e sc e c g))) by auto; destruct (gen_e sc e c g); cbn [snd] in H
  | |- context [gen_es ?sc ?e ?g] => let H := fresh "H" in assert (H : ext g (snd (gen_es sc e g))) by auto; destruct (gen_es sc e g); cbn [snd] in H
  | |- context [gen_f ?sc ?e ?g] => let H := fresh "H" in assert (H : ext g (snd (gen_f sc e g))) by auto; destruct (gen_f sc e g); cbn [snd] in H
  | |- context [gen_s ?sc ?e ?g] => let H := fresh "H" in assert (H : ext g (snd (gen_s sc e g))) by auto; destruct (gen_s sc e g); cbn [snd] in H
  | |- context [gen_b ?sc ?e ?g] => let H := fresh "H" in assert (H : ext g (snd (gen_b sc e g))) by auto; destruct (gen_b sc e g); cbn [snd] in H
  | |- context [gen_ss ?sc ?e ?g] => let H := fresh "H" in assert (H : ext g (snd (gen_ss sc e g))) by auto; destruct (gen_ss sc e g); cbn [snd] in H
  | |- context [gen_load ?sc ?x ?g] => let H := fresh "H" in pose proof (ext_load sc x g) as H; destruct (gen_load sc x g); cbn [snd] in H
  | |- context [addstr ?g ?x] => let H := fresh "H" in pose proof (ext_addstr g x) as H; destruct (addstr g x); cbn [snd] in H
  end.
Lemma gen_ext :
  (forall e sc c g, ext g (snd (gen_e sc e c g))) /\ (forall l sc g, ext g (snd (gen_es sc l g))) /\ (forall l sc g, ext g (snd (gen_f sc l g))) /\
  (forall s sc g, ext g (snd (gen_s sc s g))) /\ (forall b sc g, ext g (snd (gen_b sc b g))) /\ (forall l sc g, ext g (snd (gen_ss sc l g))).
Proof.
  apply ast_ind; intros; cbn [gen_e gen_es gen_f gen_s gen_b gen_ss]; try (apply ext_refl); repeat step; cbn [snd]; auto;
    try (eauto using ext_trans, ext_refl, ext_lab2, ext_lab4; fail).
  - eapply ext_fun; eauto.
  - destruct sc; repeat step; cbn [snd]; eauto using ext_trans, ext_refl.
  - destruct sc; repeat step; cbn [snd]; eauto using ext_trans, ext_refl.
  - destruct (slot sc x); repeat step; cbn [snd]; eauto using ext_trans, ext_refl.
  - eapply ext_trans; eauto. eapply ext_fun; eauto.
Qed.
