(** The functions of the code of Gen.v: those of the script, in their order, each with the code of its body. *)
From Verif Require Import Base ListLemmas Dict Strman Text Instr Asm AsmSpec AsmProofs VmCode PropsLoad Source Gen GenExt PgBase PgSym PgExpr PgFun PgScript GenOk GenStep GenSim.
Local Open Scope Z_scope. Local Open Scope list_scope.

Section C.
Variable strtof : list Z -> option Z.
Variable strs : list str.
Variable chunks : list gchunk.
Notation good := (good strtof strs chunks).
Notation below := (below strs chunks).
Notation ok_e := (ok_e strtof). Notation ok_es := (ok_es strtof). Notation ok_f := (ok_f strtof). Notation ok_s := (ok_s strtof). Notation ok_b := (ok_b strtof). Notation ok_ss := (ok_ss strtof).

(** The name of a function and the function. *)
Definition nmd (gc : gchunk) : list (str * Z) := match gc_name gc with Some x => [(x, fn_id (gc_fn gc))] | None => [] end.
Definition Cok (g g' : gst) (fs : list func) (ds : list (str * Z)) : Prop :=
  ext g g' /\ (below g' -> exists cs, g_chunks g' = g_chunks g ++ cs /\ map gc_fn cs = fs /\ flat_map nmd cs = ds /\ Forall good cs).
Lemma Cok_refl g : Cok g g [] [].
Proof. split; [apply ext_refl|]. intros _. exists []. rewrite app_nil_r. auto. Qed.
Lemma Cok_seq g g1 g2 f1 f2 d1 d2 : Cok g g1 f1 d1 -> Cok g1 g2 f2 d2 -> Cok g g2 (f1 ++ f2) (d1 ++ d2).
Proof.
  intros [E1 H1] [E2 H2]. split; [eapply ext_trans; eauto|]. intro HB. destruct (H2 HB) as (c2 & A1 & A2 & A3 & A4). destruct (H1 (below_ext _ _ _ _ E2 HB)) as (c1 & B1 & B2 & B3 & B4).
  exists (c1 ++ c2). rewrite A1, B1, app_assoc, map_app, flat_map_app, A2, B2, A3, B3. repeat split; auto. apply Forall_app. auto.
Qed.
Lemma Cok_same g g' : ext g g' -> g_chunks g' = g_chunks g -> Cok g g' [] [].
Proof. intros E H. split; auto. intros _. exists []. rewrite H, app_nil_r. auto. Qed.
Lemma Cok_lab g g' k f d : 0 <= k -> Cok (labels g k) g' f d -> Cok g g' f d.
Proof. intros Hk H. apply (Cok_seq g (labels g k) g' [] f [] d); auto. apply Cok_same; [apply ext_labels; auto|reflexivity]. Qed.
Lemma Cok_addstr g s : Cok g (snd (addstr g s)) [] [].
Proof. apply Cok_same; [apply ext_addstr|]. unfold addstr. destruct (index s (g_strs g)); reflexivity. Qed.
Lemma Cok_load sc x g : Cok g (snd (gen_load sc x g)) [] [].
Proof.
  apply Cok_same; [apply ext_load|]. unfold gen_load. destruct (slot sc x); [reflexivity|]. unfold addstr. destruct (index x (g_strs g)); reflexivity.
Qed.
Definition sne (sc : scope) : Prop := match sc with Local l => l <> [] | _ => True end.
Lemma Cok_fun g nm id vs b l g1 ds : gen_ss (Local vs) b (mkG (g_lab g + 1) (g_strs g) []) = (l, g1) ->
  Cok (mkG (g_lab g + 1) (g_strs g) []) g1 (funs_ss (Local vs) b) ds -> ds = [] -> ok_ss (Local vs) b = true -> vs <> [] -> few vs = true ->
  Cok g (mkG (g_lab g1) (g_strs g1) (g_chunks g ++ mkGc (g_lab g) nm (mkFn id vs b) (l ++ endvars (Local vs) (afters (Local vs) b) ++ [ins I_RET0]) :: g_chunks g1))
    (mkFn id vs b :: funs_ss (Local vs) b) (match nm with Some x => [(x, id)] | None => [] end).
Proof.
  intros HG [E H] Hd HO HV HF. split; [eapply ext_fun; [reflexivity|exact E]|]. intros [HB1 HB2]. cbn [g_strs g_chunks] in *.
  assert (HB : below g1). { split; auto. intros c Hc. apply HB2. apply in_or_app. right. right. auto. }
  destruct (H HB) as (cs & A1 & A2 & A3 & A4). cbn [g_chunks app] in A1. eexists. split; [reflexivity|]. rewrite A1. cbn [map gc_fn flat_map nmd gc_name fn_id]. rewrite A2, A3, Hd, app_nil_r. split; [reflexivity|]. split; [reflexivity|].
  constructor; [|exact A4]. eexists _, _, _. cbn [gc_fn fn_vars fn_body gc_code]. split; [exact HG|]. auto.
Qed.
Definition def_of (s : stat) : list (str * Z) := match s with S_fun id x _ _ => [(x, id)] | _ => [] end.
Lemma defined_cons s l : defined (Ss_cons s l) = def_of s ++ defined l. Proof. destruct s; reflexivity. Qed.
Lemma single_def s : single_ok s = true -> def_of s = []. Proof. destruct s; try discriminate; reflexivity. Qed.
Lemma inner_def l : forall sc, sc <> Top -> ok_ss sc l = true -> defined l = [].
Proof.
  induction l as [|s l IH]; intros sc Hs H; [reflexivity|]. cbn [Source.ok_ss] in H. apply andb_true_iff in H as [H1 H2]. rewrite defined_cons. rewrite (IH (after sc s)); auto.
  - destruct s; auto. cbn [Source.ok_s] in H1. destruct sc; congruence.
  - destruct s; auto; destruct sc; cbn [after declare]; congruence.
Qed.

Ltac ands := repeat match goal with H : (_ && _)%bool = true |- _ => apply andb_true_iff in H as [? ?] end.
Ltac cstep :=
  match goal with
  | |- context [gen_e ?sc ?e ?c ?g] => let H := fresh "G" in assert (H : Cok g (snd (gen_e sc e c g)) (funs_e sc e) []) by auto; destruct (gen_e sc e c g); cbn [snd] in H
  | |- context [gen_es ?sc ?e ?g] => let H := fresh "G" in assert (H : Cok g (snd (gen_es sc e g)) (funs_es sc e) []) by auto; destruct (gen_es sc e g); cbn [snd] in H
  | |- context [gen_f ?sc ?e ?g] => let H := fresh "G" in assert (H : Cok g (snd (gen_f sc e g)) (funs_f sc e) []) by auto; destruct (gen_f sc e g); cbn [snd] in H
  | |- context [gen_s ?sc ?e ?g] => let H := fresh "G" in assert (H : Cok g (snd (gen_s sc e g)) (funs_s sc e) (def_of e)) by auto; destruct (gen_s sc e g); cbn [snd] in H
  | |- context [gen_b ?sc ?e ?g] => let H := fresh "G" in assert (H : Cok g (snd (gen_b sc e g)) (funs_b sc e) []) by auto; destruct (gen_b sc e g); cbn [snd] in H
  | |- context [gen_ss ?sc ?e ?g] => let H := fresh "G" in let H' := fresh "Q" in assert (H : Cok g (snd (gen_ss sc e g)) (funs_ss sc e) (defined e)) by auto; destruct (gen_ss sc e g) eqn:H'; cbn [snd] in H
  | |- context [gen_load ?sc ?x ?g] => let H := fresh "G" in pose proof (Cok_load sc x g) as H; destruct (gen_load sc x g); cbn [snd] in H
  | |- context [addstr ?g ?x] => let H := fresh "G" in pose proof (Cok_addstr g x) as H; destruct (addstr g x); cbn [snd] in H
  end.
Lemma Cok_eq g g' f f' d d' : Cok g g' f d -> f = f' -> d = d' -> Cok g g' f' d'. Proof. intros H <- <-. auto. Qed.
Ltac cseq := first [eassumption | eapply Cok_seq; [eassumption|]; cseq].
Ltac fin := eapply Cok_eq; [cseq|rewrite ?app_nil_r; reflexivity|reflexivity].
Lemma gen_chunks :
  (forall e sc c g, ok_e sc e = true -> sne sc -> Cok g (snd (gen_e sc e c g)) (funs_e sc e) []) /\
  (forall l sc g, ok_es sc l = true -> sne sc -> Cok g (snd (gen_es sc l g)) (funs_es sc l) []) /\
  (forall l sc g, ok_f sc l = true -> sne sc -> Cok g (snd (gen_f sc l g)) (funs_f sc l) []) /\
  (forall s sc g, ok_s sc s = true -> sne sc -> Cok g (snd (gen_s sc s g)) (funs_s sc s) (def_of s)) /\
  (forall b sc g, ok_b sc b = true -> sne sc -> Cok g (snd (gen_b sc b g)) (funs_b sc b) []) /\
  (forall l sc g, ok_ss sc l = true -> sne sc -> Cok g (snd (gen_ss sc l g)) (funs_ss sc l) (defined l)).
Proof.
  assert (ND : forall sc x, sne sc -> sne (declare sc x)) by (intros [| |l] x; cbn [declare sne]; auto; intros _ H; apply app_eq_nil in H as [_ H]; discriminate).
  apply ast_ind; intros; cbn [gen_e gen_es gen_f gen_s gen_b gen_ss Source.ok_e Source.ok_es Source.ok_f Source.ok_s Source.ok_b Source.ok_ss funs_e funs_es funs_f funs_s funs_b funs_ss def_of] in *; ands; try (apply Cok_refl);
    try (repeat cstep; cbn [fst snd]; fin; fail).
  - (* lambda *) assert (HN : fun_vars sc params <> []) by (destruct sc as [| |l]; cbn [fun_vars sne] in *; try discriminate; intro HE; apply app_eq_nil in HE as [HE _]; auto).
    cstep. cbn [snd]. eapply (Cok_fun g None); eauto. eapply inner_def; [|eassumption]. discriminate.
  - destruct sc; repeat cstep; cbn [snd]; first [apply Cok_refl|fin].
  - destruct sc; repeat cstep; cbn [snd]; fin.
  - destruct (slot sc x); repeat cstep; cbn [snd]; fin.
  - repeat cstep; cbn [snd]. apply (Cok_lab g _ 2); [lia|]. fin.
  - repeat cstep; cbn [snd]. apply (Cok_lab g _ 2); [lia|]. fin.
  - repeat cstep; cbn [snd]. apply (Cok_lab g _ 2); [lia|]. fin.
  - repeat cstep; cbn [snd]. apply (Cok_lab g _ 4); [lia|]. repeat match goal with H : single_ok _ = true |- _ => apply single_def in H; rewrite H in * end. fin.
  - destruct sc; try discriminate. ands. cstep. cbn [snd]. assert (HN : fun_vars Top params <> []) by discriminate. cstep. cbn [snd]. eapply (Cok_seq g g0 _ [] _ [] [(name, id)]); [auto|].
    eapply (Cok_fun g0 (Some name)); eauto. eapply inner_def; [|eassumption]. discriminate.
  - assert (HS : sne (inner sc)) by (destruct sc; auto). cstep. cbn [snd]. eapply Cok_eq; [eassumption|reflexivity|]. eapply inner_def; [|eassumption]. destruct sc; discriminate.
  - eapply Cok_eq; [eauto|reflexivity|]. apply single_def; auto.
  - assert (HS : sne (after sc s)) by (destruct s; cbn [after]; auto). cstep. cstep. cbn [snd]. rewrite defined_cons. fin.
Qed.
End C.
