(** The meaning of scripts (Source.v) does not depend on the number of calls and iterations allowed, once
    this number is enough: used by PropsScript.v. *)
From Verif Require Import Base Float Dict PDict Strman Obj Vm Text Lex Source GenExt.
Local Open Scope Z_scope. Local Open Scope list_scope.

Definition le_out {A} (x y : out A) : Prop := x = More \/ x = y.
Lemma le_refl {A} (x : out A) : le_out x x. Proof. right. reflexivity. Qed.
Lemma le_bind {A B} (x y : out A) (f g : A -> out B) : le_out x y -> (forall a, le_out (f a) (g a)) -> le_out (obind x f) (obind y g).
Proof. intros [->| ->] H; [left; reflexivity|]. destruct y; cbn [obind]; auto; apply le_refl. Qed.
Lemma le_then {X} (x y : out (sres (X := X))) f g : le_out x y -> (forall l st, le_out (f l st) (g l st)) -> le_out (then_ x f) (then_ y g).
Proof. intros H HF. apply le_bind; auto. intros [[[o|] l] st]; [apply le_refl|apply HF]. Qed.

Section M.
Context {X : Type}.
Variable strtof : list Z -> option Z.
Variable powf : libm.
Variable sid : str -> Z.
Variable ref : Z -> Z.
Variable fns : list func.
Variable cfun : Z -> list obj -> sst X -> out (obj * sst X).
Definition le_rest (n m : rest (X := X)) : Prop :=
  (forall f vs st, le_out (call n f vs st) (call m f vs st)) /\ (forall c u b l st, le_out (again n c u b l st) (again m c u b l st)).
Ltac step IH := first [apply le_refl | apply IH | apply le_bind; [apply IH|] ].
Lemma mono n m : le_rest n m ->
  (forall e l st, le_out (eval strtof powf sid ref n e l st) (eval strtof powf sid ref m e l st)) /\
  (forall es l st, le_out (evals strtof powf sid ref n es l st) (evals strtof powf sid ref m es l st)) /\
  (forall fs t l st, le_out (fill strtof powf sid ref n fs t l st) (fill strtof powf sid ref m fs t l st)) /\
  (forall s l st, le_out (exec strtof powf sid ref n s l st) (exec strtof powf sid ref m s l st)) /\
  (forall b l st, le_out (exec_body strtof powf sid ref n b l st) (exec_body strtof powf sid ref m b l st)) /\
  (forall ss l st, le_out (exec_all strtof powf sid ref n ss l st) (exec_all strtof powf sid ref m ss l st)).
Proof.
  intros [HC HA]. apply ast_ind; try (intros; apply le_refl).
  - intros u e IH l st. apply le_bind; [apply IH|]. intros [x st1]. apply le_refl.
  - intros b e1 IH1 e2 IH2 l st. apply le_bind; [apply IH1|]. intros [x st1]. apply le_bind; [apply IH2|]. intros [y st2]. apply le_refl.
  - intros fs IH l st. apply le_bind; [apply IH|]. intros st1. apply le_refl.
  - intros e1 IH1 e2 IH2 l st. apply le_bind; [apply IH1|]. intros [x st1]. apply le_bind; [apply IH2|]. intros [y st2]. apply le_refl.
  - intros f IH1 args IH2 l st. apply le_bind; [apply IH1|]. intros [x st1]. apply le_bind; [apply IH2|]. intros [y st2]. apply HC.
  - intros e IH1 r IH2 l st. apply le_bind; [apply IH1|]. intros [x st1]. apply le_bind; [apply IH2|]. intros [y st2]. apply le_refl.
  - intros k IH1 e IH2 r IH3 t l st. apply le_bind; [apply IH1|]. intros [x st1]. apply le_bind; [apply IH2|]. intros [y st2]. apply le_bind; [apply le_refl|]. intros st3. apply IH3.
  - intros x e IH l st. change (le_out (if is_top l then obind (eval strtof powf sid ref n e l st) (fun '(v, st) => Done (@None obj, l, set_glob st x v))
        else let l := l ++ [(x, ONil)] in obind (eval strtof powf sid ref n e l st) (fun '(v, st) => Done (None, var_set l x v, st)))
      (if is_top l then obind (eval strtof powf sid ref m e l st) (fun '(v, st) => Done (None, l, set_glob st x v))
        else let l := l ++ [(x, ONil)] in obind (eval strtof powf sid ref m e l st) (fun '(v, st) => Done (None, var_set l x v, st)))).
    destruct (is_top l); cbv zeta; (apply le_bind; [apply IH|]; intros [y st1]; apply le_refl).
  - intros x e IH l st. apply le_bind; [apply IH|]. intros [y st1]. apply le_refl.
  - intros e IH1 k IH2 v IH3 l st. apply le_bind; [apply IH1|]. intros [x st1]. apply le_bind; [apply IH2|]. intros [y st2]. apply le_bind; [apply IH3|]. intros [z st3]. apply le_refl.
  - intros f IH1 args IH2 l st. apply le_bind; [apply IH1|]. intros [x st1]. apply le_bind; [apply IH2|]. intros [y st2]. apply le_bind; [apply HC|]. intros [z st3]. apply le_refl.
  - intros c IH1 b IH2 l st. apply le_bind; [apply IH1|]. intros [x st1]. destruct (truthy x); [apply IH2|apply le_refl].
  - intros c IH1 b1 IH2 b2 IH3 l st. apply le_bind; [apply IH1|]. intros [x st1]. destruct (truthy x); [apply IH2|apply IH3].
  - intros c IH1 b IH2 l st. apply le_bind; [apply IH1|]. intros [x st1]. destruct (truthy x); [|apply le_refl]. apply le_then; [apply IH2|]. intros l2 st2. apply HA.
  - intros i IH0 c IH1 u IH3 b IH2 l st. apply le_then; [apply IH0|]. intros l1 st1. apply le_bind; [apply IH1|]. intros [x st2]. destruct (truthy x); [|apply le_refl].
    apply le_then; [apply IH2|]. intros l3 st3. apply le_then; [apply IH3|]. intros l4 st4. apply HA.
  - intros e IH l st. apply le_bind; [apply IH|]. intros [x st1]. apply le_refl.
  - intros ss IH l st. apply le_bind; [apply IH|]. intros [[r l1] st1]. apply le_refl.
  - intros s IH l st. apply IH.
  - intros s IH1 r IH2 l st. apply le_then; [apply IH1|]. intros l1 st1. apply IH2.
Qed.
Lemma at_most_mono n : forall m, (n <= m)%nat -> le_rest (at_most strtof powf sid ref fns cfun n) (at_most strtof powf sid ref fns cfun m).
Proof.
  induction n as [|n IH]; intros m Hm.
  - split; intros; [|left; reflexivity]. destruct m as [|m]; [apply le_refl|]. cbn [at_most call]. unfold apply.
    destruct f as [| | | | |[] r a|]; try (right; reflexivity). left. reflexivity.
  - destruct m as [|m]; [lia|]. destruct (mono _ _ (IH m ltac:(lia))) as (M1 & M2 & M3 & M4 & M5 & M6). destruct (IH m ltac:(lia)) as [HC HA]. split; cbn [at_most call again]; intros.
    + unfold apply. destruct f as [| | | | |[] r a|]; try apply le_refl. destruct (find _ fns) as [fn|]; [|apply le_refl]. destruct (_ =? _); [|apply le_refl].
      apply le_bind; [apply M6|]. intros [[o l1] st1]. apply le_refl.
    + unfold iterate. apply le_bind; [apply M1|]. intros [x st1]. destruct (truthy x); [|apply le_refl]. apply le_then; [apply M5|]. intros l2 st2.
      destruct u as [s|]; [|apply HA]. apply le_then; [apply M4|]. intros l3 st3. apply HA.
Qed.
Lemma run_mono n m l st : (n <= m)%nat -> le_out (run strtof powf sid ref fns cfun n l st) (run strtof powf sid ref fns cfun m l st).
Proof. intro H. apply le_bind; [apply (mono _ _ (at_most_mono n m H))|]. intros [[r l1] st1]. apply le_refl. Qed.
Lemma run_one n m l st : run strtof powf sid ref fns cfun n l st <> More -> run strtof powf sid ref fns cfun m l st <> More -> run strtof powf sid ref fns cfun n l st = run strtof powf sid ref fns cfun m l st.
Proof.
  intros H1 H2. destruct (Nat.le_ge_cases n m) as [H|H]; [destruct (run_mono n m l st H)|destruct (run_mono m n l st H)]; congruence.
Qed.
End M.

(** The language itself changes only the global variables and the tables. *)
Definition outs {A} (Q : A -> Prop) (o : out A) : Prop := match o with Done a => Q a | _ => True end.
Lemma outs_bind {A B} (Q : A -> Prop) (R : B -> Prop) o f : outs Q o -> (forall a, Q a -> outs R (f a)) -> outs R (obind o f).
Proof. destruct o; cbn [outs obind]; auto. Qed.
Section Keep.
Context {X : Type}.
Variable strtof : list Z -> option Z.
Variable powf : libm.
Variable sid : str -> Z.
Variable ref : Z -> Z.
Variable fns : list func.
Variable cfun : Z -> list obj -> sst X -> out (obj * sst X).
Variable I : strman -> X -> Prop.
Definition kp (st : sst X) : Prop := I (s_str st) (s_ext st).
Definition kp_out {A} : out (A * sst X) -> Prop := outs (fun r => kp (snd r)).
Hypothesis Hc : forall i args st, kp st -> kp_out (cfun i args st).
Lemma kp_then o f : kp_out o -> (forall l st, kp st -> kp_out (f l st)) -> kp_out (then_ o f).
Proof. intros H HF. unfold then_. eapply outs_bind; [exact H|]. intros [[[x|] l] st] K; [exact K|apply HF, K]. Qed.
Lemma kp_put st t k x : kp st -> outs kp (put_val st t k x).
Proof.
  intro K. unfold put_val. destruct t; try exact Logic.I. destruct (is_key k); [|exact Logic.I]. destruct (table_at _ a) as [d| | |]; cbn [obind]; try exact Logic.I.
  match goal with |- context [of_res ?o] => destruct o end; cbn [of_res obind]; try exact Logic.I. exact K.
Qed.
Definition kp_rest (n : rest (X := X)) : Prop :=
  (forall f vs st, kp st -> kp_out (call n f vs st)) /\ (forall c u b l st, kp st -> kp_out (again n c u b l st)).
Ltac b1 IH := eapply outs_bind; [apply IH; assumption|].
Lemma kp_all n : kp_rest n ->
  (forall e l st, kp st -> kp_out (eval strtof powf sid ref n e l st)) /\
  (forall es l st, kp st -> kp_out (evals strtof powf sid ref n es l st)) /\
  (forall fs t l st, kp st -> outs kp (fill strtof powf sid ref n fs t l st)) /\
  (forall s l st, kp st -> kp_out (exec strtof powf sid ref n s l st)) /\
  (forall b l st, kp st -> kp_out (exec_body strtof powf sid ref n b l st)) /\
  (forall ss l st, kp st -> kp_out (exec_all strtof powf sid ref n ss l st)).
Proof.
  intros [HC HA]. apply ast_ind; try (intros; assumption).
  - intros u e IH l st K. b1 IH. intros [x st1] K1. cbn [snd] in K1. destruct (un_val u x); cbn; auto.
  - intros b e1 IH1 e2 IH2 l st K. b1 IH1. intros [x st1] K1. cbn [snd] in K1. b1 IH2. intros [y st2] K2. cbn [snd] in K2. destruct (bin_val powf b x y); cbn; auto.
  - intros fs IH l st K. eapply outs_bind; [apply IH; exact K|]. intros st1 K1. exact K1.
  - intros e1 IH1 e2 IH2 l st K. b1 IH1. intros [x st1] K1. cbn [snd] in K1. b1 IH2. intros [y st2] K2. cbn [snd] in K2. destruct (get_val st2 x y); cbn; auto.
  - intros f IH1 args IH2 l st K. b1 IH1. intros [x st1] K1. cbn [snd] in K1. b1 IH2. intros [y st2] K2. cbn [snd] in K2. apply HC. auto.
  - intros e IH1 r IH2 l st K. b1 IH1. intros [x st1] K1. cbn [snd] in K1. b1 IH2. intros [y st2] K2. exact K2.
  - intros k IH1 e IH2 r IH3 t l st K. b1 IH1. intros [x st1] K1. cbn [snd] in K1. b1 IH2. intros [y st2] K2. cbn [snd] in K2. eapply outs_bind; [apply kp_put; exact K2|]. intros st3 K3. apply IH3. auto.
  - intros x l st K. change (kp_out (let '(l, st) := new_var (is_top l) x ONil l st in Done (@None obj, l, st))). destruct (is_top l); exact K.
  - intros x e IH l st K. change (kp_out (if is_top l then obind (eval strtof powf sid ref n e l st) (fun '(v, st) => Done (@None obj, l, set_glob st x v))
        else let l := l ++ [(x, ONil)] in obind (eval strtof powf sid ref n e l st) (fun '(v, st) => Done (None, var_set l x v, st)))).
    destruct (is_top l); cbv zeta; (b1 IH; intros [y st1] K1; exact K1).
  - intros x e IH l st K. b1 IH. intros [y st1] K1. unfold assign. destruct (var_get l x); exact K1.
  - intros e IH1 k IH2 v IH3 l st K. b1 IH1. intros [x st1] K1. cbn [snd] in K1. b1 IH2. intros [y st2] K2. cbn [snd] in K2. b1 IH3. intros [z st3] K3. cbn [snd] in K3. eapply outs_bind; [apply kp_put; exact K3|]. intros st4 K4. exact K4.
  - intros f IH1 args IH2 l st K. b1 IH1. intros [x st1] K1. cbn [snd] in K1. b1 IH2. intros [y st2] K2. cbn [snd] in K2. b1 HC. intros [z st3] K3. exact K3.
  - intros c IH1 b IH2 l st K. b1 IH1. intros [x st1] K1. cbn [snd] in K1. destruct (truthy x); [apply IH2; auto|exact K1].
  - intros c IH1 b1 IH2 b2 IH3 l st K. b1 IH1. intros [x st1] K1. cbn [snd] in K1. destruct (truthy x); [apply IH2; auto|apply IH3; auto].
  - intros c IH1 b IH2 l st K. b1 IH1. intros [x st1] K1. cbn [snd] in K1. destruct (truthy x); [|exact K1]. apply kp_then; [apply IH2; auto|]. intros l2 st2 K2. apply HA. auto.
  - intros i IH0 c IH1 u IH3 b IH2 l st K. apply kp_then; [apply IH0; auto|]. intros l1 st1 K1. b1 IH1. intros [x st2] K2. cbn [snd] in K2. destruct (truthy x); [|exact K2].
    apply kp_then; [apply IH2; auto|]. intros l3 st3 K3. apply kp_then; [apply IH3; auto|]. intros l4 st4 K4. apply HA. auto.
  - intros e IH l st K. b1 IH. intros [x st1] K1. exact K1.
  - intros ss IH l st K. b1 IH. intros [[r l1] st1] K1. exact K1.
  - intros s IH l st K. apply IH. auto.
  - intros s IH1 r IH2 l st K. apply kp_then; [apply IH1; auto|]. intros l1 st1 K1. apply IH2. auto.
Qed.
Lemma kp_at_most n : kp_rest (at_most strtof powf sid ref fns cfun n).
Proof.
  induction n as [|n IH].
  - split; intros; [|exact Logic.I]. cbn [at_most call]. destruct f as [| | | | |[] r a|]; try exact Logic.I. apply Hc. auto.
  - destruct (kp_all _ IH) as (M1 & M2 & M3 & M4 & M5 & M6). destruct IH as [HC HA]. split; cbn [at_most call again]; intros.
    + unfold apply. destruct f as [| | | | |[] r a|]; try exact Logic.I; [|apply Hc; auto]. destruct (find _ fns) as [fn|]; [|exact Logic.I]. destruct (_ =? _); [|exact Logic.I].
      eapply outs_bind; [apply M6; auto|]. intros [[o l1] st1] K1. exact K1.
    + unfold iterate. eapply outs_bind; [apply M1; auto|]. intros [x st1] K1. cbn [snd] in K1. destruct (truthy x); [|exact K1]. apply kp_then; [apply M5; auto|]. intros l2 st2 K2.
      destruct u as [s|]; [|apply HA; auto]. apply kp_then; [apply M4; auto|]. intros l3 st3 K3. apply HA. auto.
Qed.
Lemma kp_run n l st : kp st -> outs kp (run strtof powf sid ref fns cfun n l st).
Proof. intro K. eapply outs_bind; [apply (kp_all _ (kp_at_most n)); exact K|]. intros [[r l1] st1] K1. exact K1. Qed.
End Keep.
