(** The code of the reference generator, run by the VM, does what the meaning of the language says. *)
From Verif Require Import Base ListLemmas Float Dict PDict DictProofs PDictKeys Strman Obj Instr Vm VmSpec VmProofs PropsVmArith PropsVmData Text Asm AsmSpec AsmProofs VmCode Source Gen GenExt PgBase PgSym PgExpr PgOps PgFun PgScript GenOk CompileSpec GenStep.
Local Open Scope Z_scope. Local Open Scope list_scope.

Lemma index_var x l : match index x (map fst l) with
  | Some i => 0 <= i < zlen l /\ exists o, var_get l x = Some o /\ nth_error (map snd l) (Z.to_nat i) = Some o /\
      forall w, map fst (var_set l x w) = map fst l /\ map snd (var_set l x w) = upd (map snd l) (Z.to_nat i) w
  | None => var_get l x = None
  end.
Proof.
  induction l as [|[y o] l IH]; [reflexivity|]. cbn [map fst index var_get var_set]. rewrite zlen_cons. pose proof (zlen_nonneg l). destruct (same x y).
  - split; [lia|]. exists o. repeat split.
  - destruct (index x (map fst l)) as [i|]; auto. destruct IH as (Hi & o' & H1 & H2 & H3). split; [lia|]. exists o'. split; auto.
    replace (Z.to_nat (i + 1)) with (S (Z.to_nat i)) by lia. split; auto. intro w. destruct (H3 w) as (E1 & E2). cbn [map fst snd upd]. rewrite E1, E2. auto.
Qed.
Lemma upd_map {A B} (f : A -> B) l : forall i x, map f (upd l i x) = upd (map f l) i (f x).
Proof. induction l as [|y l IH]; intros [|i] x; cbn [upd map]; auto. rewrite IH. reflexivity. Qed.
Lemma slot_set_in l i x : (i < length l)%nat -> slot_set l i x = upd l i (Some x).
Proof. intro H. unfold slot_set. replace (Nat.ltb i (length l)) with true by (symmetry; apply Nat.ltb_lt; auto). reflexivity. Qed.
Lemma slot_set_end l x : slot_set l (length l) x = l ++ [Some x].
Proof. unfold slot_set. rewrite Nat.ltb_irrefl, Nat.sub_diag. reflexivity. Qed.
Lemma index_last x l : ~ In x l -> index x (l ++ [x]) = Some (zlen l). Proof. apply index_new. Qed.
Lemma upd_last {A} (l : list A) x y : upd (l ++ [x]) (length l) y = l ++ [y].
Proof. induction l; cbn [upd app length]; auto. rewrite IHl. reflexivity. Qed.

Section G.
Context {X : Type}.
Variable flist : list (vm X -> res (vm X)).
Variable powf : libm.
Variable strtof : list Z -> option Z.
Variable env : str -> Z.
Variable code : Z -> Z.
Variable size : Z.
Variable sm_ok : strman -> Prop.
Variable strs : list str.
Variable ref : Z -> Z.
Variable chunks : list gchunk.
Variable cfun : Z -> list obj -> Source.sst X -> out (obj * Source.sst X).
Hypothesis Hcfun : c_functions flist sm_ok cfun.
Notation vm_step := (vm_step flist powf code size).
Notation vm_steps := (vm_steps flist powf code size).
Notation at_ := (at_ strtof env code size).
Notation rel := (rel sm_ok strs).
Notation sst := (sst X).
Variable fine : vm X -> Prop.
Hypothesis Hfine : forall v, sm_ok (v_str v) -> (forall f, In f (v_lsymts v) -> ~ In None (ls_syms f)) ->
  (about_to code v I_PUSHS -> exists x, index x strs = Some (instr_arg code v)) -> fine v.
Notation sim := (sim flist powf code size fine).
Notation fstep := (fstep flist powf code size fine).
Notation goes := (goes flist powf code size sm_ok strs fine).
Notation ok_e := (ok_e strtof). Notation ok_es := (ok_es strtof). Notation ok_f := (ok_f strtof). Notation ok_s := (ok_s strtof). Notation ok_b := (ok_b strtof). Notation ok_ss := (ok_ss strtof).
Implicit Types v : vm X.

Definition sid (x : str) : Z := match index x strs with Some p => p | None => 0 end.
Definition K (n : nat) : @rest X := at_most strtof powf sid ref (map gc_fn chunks) cfun n.
Notation eval n := (eval strtof powf sid ref (K n)).
Notation evals n := (evals strtof powf sid ref (K n)).
Notation fill n := (fill strtof powf sid ref (K n)).
Notation exec n := (exec strtof powf sid ref (K n)).
Notation exec_body n := (exec_body strtof powf sid ref (K n)).
Notation exec_all n := (exec_all strtof powf sid ref (K n)).

(** What was generated so far is in the program. *)
Definition below (g : gst) : Prop := (exists l, strs = g_strs g ++ l) /\ incl (g_chunks g) chunks.
Lemma below_ext g g' : ext g g' -> below g' -> below g.
Proof.
  intros ((l & E1) & _ & l' & E2) ((k & E) & HI). split; [exists (l ++ k); rewrite E, E1, app_assoc; reflexivity|].
  intros c Hc. apply HI. rewrite E2. apply in_or_app. auto.
Qed.
Lemma below_str g x p g' : addstr g x = (p, g') -> below g' -> index x strs = Some p.
Proof. intros H ((l & E) & _). destruct (addstr_spec _ _ _ _ H) as (HI & _). rewrite E. apply index_ext. auto. Qed.

(** A function of the program. *)
Definition good (gc : gchunk) : Prop :=
  exists g0 c g1, gen_ss (Local (fn_vars (gc_fn gc))) (fn_body (gc_fn gc)) g0 = (c, g1) /\ below g1 /\
    gc_code gc = c ++ endvars (Local (fn_vars (gc_fn gc))) (afters (Local (fn_vars (gc_fn gc))) (fn_body (gc_fn gc))) ++ [ins I_RET0] /\
    ok_ss (Local (fn_vars (gc_fn gc))) (fn_body (gc_fn gc)) = true /\ fn_vars (gc_fn gc) <> [] /\ few (fn_vars (gc_fn gc)) = true.
Hypothesis Hsize : size <= 2 ^ 31.
Hypothesis Hstrs : forall p s, index s strs = Some p -> 0 <= p < 65536 /\ forall sm, sm_ok sm -> sm_get sm p = Some s.
Hypothesis Hgood : forall gc, In gc chunks -> good gc.
Hypothesis Hplace : forall gc q, In gc chunks -> gc_code gc = q ++ [ins I_RET0] ->
  at_ (env (labname (gc_label gc))) q /\ code (env (labname (gc_label gc)) + address q) = opnum I_RET0.
Hypothesis Href : forall gc, In gc chunks -> ref (fn_id (gc_fn gc)) = env (labname (gc_label gc)).

(** The local variables are in the frame; a return address is under it. *)
Definition fr (sc : scope) (l : locals) (S : list (list obj)) (F0 F : list lsyms) : Prop :=
  match sc with
  | Local vars => map fst l = vars /\ l <> [] /\ few vars = true /\ F = mkLs (map Some (map snd l)) false :: F0 /\
      exists ra s0 S0, S = (OInt ra :: s0) :: S0 /\ 0 <= ra < size
  | _ => l = [] /\ F = []
  end.
Definition post (sc : scope) (a : Z) (s : list obj) (S : list (list obj)) (F0 : list lsyms) (r : @sres X) (v' : vm X) : Prop :=
  match r with
  | (None, l', st') => exists F', rel v' a (s :: S) F' st' /\ fr sc l' S F0 F'
  | (Some x, _, st') => exists ra s0 S0, S = (OInt ra :: s0) :: S0 /\ rel v' ra ((x :: s0) :: S0) F0 st'
  end.
Lemma sim_then n v o f sc1 a1 sc2 a2 s S F0 : sim n v o (post sc1 a1 s S F0) ->
  (forall l st v F, rel v a1 (s :: S) F st -> fr sc1 l S F0 F -> sim n v (f l st) (post sc2 a2 s S F0)) -> sim n v (then_ o f) (post sc2 a2 s S F0).
Proof.
  intros H HF. unfold then_. eapply sim_bind; [exact H|]. intros [[[x|] l] st] v' HP; cbn [post] in HP.
  - apply sim_done. exact HP.
  - destruct HP as (F & HR & Hf). eapply HF; eauto.
Qed.
Lemma sim_go {A} n v a S F st (o : out A) Q : goes v a S F st -> (forall v', rel v' a S F st -> sim n v' o Q) -> sim n v o Q.
Proof. intros (H0 & v' & H1 & H2) H. eapply sim_step; [split; eauto|eauto]. Qed.
Lemma rel_eq v a b S F st : rel v a S F st -> a = b -> rel v b S F st. Proof. intros H <-. auto. Qed.
Lemma at_eq a b p : at_ a p -> a = b -> at_ b p. Proof. intros H <-. auto. Qed.

Definition ce (n : nat) (e : expr) : Prop := forall sc c g cd g' l st v a s S F0 F, ok_e sc e = true -> (c = true -> is_ref e = true) -> gen_e sc e c g = (cd, g') -> below g' ->
  at_ a cd -> rel v a (s :: S) F st -> fr sc l S F0 F ->
  sim n v (eval n e l st) (fun r v' => exists pre, length pre = (if c then 1 else 0)%nat /\ rel v' (a + address cd) ((fst r :: pre ++ s) :: S) F (snd r)).
Definition ces (n : nat) (es : exprs) : Prop := forall sc g cd g' l st v a s S F0 F, ok_es sc es = true -> gen_es sc es g = (cd, g') -> below g' ->
  at_ a cd -> rel v a (s :: S) F st -> fr sc l S F0 F ->
  sim n v (evals n es l st) (fun r v' => zlen (fst r) = count es /\ rel v' (a + address cd) ((rev (fst r) ++ s) :: S) F (snd r)).
Definition cf (n : nat) (fs : fields) : Prop := forall sc g cd g' l st v a t s S F0 F, ok_f sc fs = true -> gen_f sc fs g = (cd, g') -> below g' ->
  at_ a cd -> rel v a ((t :: s) :: S) F st -> fr sc l S F0 F ->
  sim n v (fill n fs t l st) (fun st' v' => rel v' (a + address cd) ((t :: s) :: S) F st').
Definition cs (n : nat) (s : stat) : Prop := forall sc g cd g' l st v a k S F0 F, ok_s sc s = true -> gen_s sc s g = (cd, g') -> below g' ->
  at_ a cd -> rel v a (k :: S) F st -> fr sc l S F0 F -> sim n v (exec n s l st) (post (after sc s) (a + address cd) k S F0).
Definition cb (n : nat) (b : body) : Prop := forall sc g cd g' l st v a k S F0 F, ok_b sc b = true -> gen_b sc b g = (cd, g') -> below g' ->
  at_ a cd -> rel v a (k :: S) F st -> fr sc l S F0 F -> sim n v (exec_body n b l st) (post sc (a + address cd) k S F0).
Definition css (n : nat) (ss : stats) : Prop := forall sc g cd g' l st v a k S F0 F, ok_ss sc ss = true -> gen_ss sc ss g = (cd, g') -> below g' ->
  at_ a cd -> rel v a (k :: S) F st -> fr sc l S F0 F -> sim n v (exec_all n ss l st) (post (afters sc ss) (a + address cd) k S F0).

Definition calls (n : nat) : Prop := forall f vs st v a self s S F, at_ a [ins I_CALLC] -> zlen vs < 2 ^ 31 - 1 ->
  rel v a ((OInt (zlen vs) :: rev vs ++ f :: self :: s) :: S) F st ->
  sim n v (call (K n) f vs st) (fun r v' => rel v' (a + 1) ((fst r :: s) :: S) F (snd r)).
(** A while loop, at the jump back; a for loop, at the jump after the update. *)
Definition while_code nl l1 l2 := lab nl :: l1 ++ insl I_JUMPZ (nl + 1) :: l2 ++ [insl I_JUMP nl; lab (nl + 1)].
Definition for_code nl l2 l3 l4 := lab nl :: l2 ++ insl I_JUMPNZ (nl + 2) :: insl I_JUMP (nl + 3) :: lab (nl + 1) :: l3 ++ insl I_JUMP nl :: lab (nl + 2) :: l4 ++ [insl I_JUMP (nl + 1); lab (nl + 3)].
Definition whiles (n : nat) : Prop := forall sc c b nl g0 l1 g1 l2 g2 l st v a k S F0 F, ok_e sc c = true -> ok_b sc b = true ->
  gen_e sc c false g0 = (l1, g1) -> gen_b sc b g1 = (l2, g2) -> below g2 -> at_ a (while_code nl l1 l2) ->
  rel v (a + address l1 + 5 + address l2) (k :: S) F st -> fr sc l S F0 F ->
  sim n v (again (K n) c None b l st) (post sc (a + address (while_code nl l1 l2)) k S F0).
Definition fors (n : nat) : Prop := forall sc c u b nl g0 l2 g2 l3 g3 l4 g4 l st v a k S F0 F, ok_e sc c = true -> ok_s sc u = true -> single_ok u = true -> ok_b sc b = true ->
  gen_e sc c false g0 = (l2, g2) -> gen_s sc u g2 = (l3, g3) -> gen_b sc b g3 = (l4, g4) -> below g4 -> at_ a (for_code nl l2 l3 l4) ->
  rel v (a + address l2 + 10 + address l3) (k :: S) F st -> fr sc l S F0 F ->
  sim n v (again (K n) c (Some u) b l st) (post sc (a + address (for_code nl l2 l3 l4)) k S F0).

Ltac addr := repeat (rewrite address_cat || cbn [address line_size lab ins insn insl app num_line when] || match goal with |- context [has_arg ?o] => let b := eval compute in (has_arg o) in change (has_arg o) with b end; cbv iota); try lia.
Ltac ats := repeat match goal with
  | H : at_ _ (_ ++ _) |- _ => apply at_app in H as [? ?]
  | H : at_ _ (_ :: ?p) |- _ => lazymatch p with [] => fail | _ => apply at_cons in H as [? ?] end
  end.


Lemma ce_plain n e : ce n e -> forall sc g cd g' l st v a s S F0 F, ok_e sc e = true -> gen_e sc e false g = (cd, g') -> below g' ->
  at_ a cd -> rel v a (s :: S) F st -> fr sc l S F0 F ->
  sim n v (eval n e l st) (fun r v' => rel v' (a + address cd) ((fst r :: s) :: S) F (snd r)).
Proof.
  intros H sc g cd g' l st v a s S F0 F H1 H2 H3 H4 H5 H6. eapply sim_weak; [eapply (H sc false); eauto; discriminate|]. intros r v' (pre & Hp & HR). destruct pre; [|discriminate]. exact HR.
Qed.
Ltac norm := cbn [line_size lab] in *; rewrite ?Z.add_0_r in *.
Ltac bel := eauto 7 using below_ext, ext_e, ext_es, ext_f, ext_s, ext_b, ext_ss, ext_lab2, ext_lab4.
Ltac ev H := eapply (ce_plain _ _ H); [eassumption|eassumption|bel|eassumption|eassumption|eassumption].
Ltac use H := cbv beta in *; eapply H; [eassumption|eassumption|bel|eassumption|eassumption|eassumption].

(** One iteration of a while loop, from its start. *)
Lemma while_iter n c b : ce n c -> cb n b -> whiles n -> forall sc nl g0 l1 g1 l2 g2 l st v a k S F0 F, ok_e sc c = true -> ok_b sc b = true ->
  gen_e sc c false g0 = (l1, g1) -> gen_b sc b g1 = (l2, g2) -> below g2 -> at_ a (while_code nl l1 l2) ->
  rel v a (k :: S) F st -> fr sc l S F0 F ->
  sim n v (iterate strtof powf sid ref (K n) c None b l st) (post sc (a + address (while_code nl l1 l2)) k S F0).
Proof.
  intros Hc Hb Hw sc nl g0 l1 g1 l2 g2 l st v a k S F0 F Oc Ob G1 G2 HB HA HR Hf. pose proof HA as HA0. unfold while_code in HA. ats. norm.
  unfold iterate. eapply sim_bind; [ev Hc|]. intros [x st1] v1 R1. cbn [fst snd] in *.
  assert (EZ : env (labname (nl + 1)) = a + address (while_code nl l1 l2)). { erewrite at_lab; [|eassumption]. unfold while_code. addr. }
  pose proof (at_range _ _ _ _ _ _ H4) as HRg. rewrite <- (at_lab _ _ _ _ _ _ _ H4) in HRg.
  eapply sim_go. { eapply go_jumpif with (t := false) (o := x); eauto. }
  intros v2 R2. destruct (truthy x); cbn [Bool.eqb] in R2.
  - eapply sim_then; [use Hb|]. intros l' st' v3 F' R3 Hf3. eapply Hw; eauto.
  - apply sim_done. exists F. split; auto. eapply rel_eq; [exact R2|exact EZ].
Qed.
Lemma for_iter n c u b : ce n c -> cs n u -> cb n b -> fors n -> forall sc nl g0 l2 g2 l3 g3 l4 g4 l st v a k S F0 F, ok_e sc c = true -> ok_s sc u = true -> single_ok u = true -> ok_b sc b = true ->
  gen_e sc c false g0 = (l2, g2) -> gen_s sc u g2 = (l3, g3) -> gen_b sc b g3 = (l4, g4) -> below g4 -> at_ a (for_code nl l2 l3 l4) ->
  rel v a (k :: S) F st -> fr sc l S F0 F ->
  sim n v (iterate strtof powf sid ref (K n) c (Some u) b l st) (post sc (a + address (for_code nl l2 l3 l4)) k S F0).
Proof.
  intros Hc Hu Hb Hw sc nl g0 l2 g2 l3 g3 l4 g4 l st v a k S F0 F Oc Ou Os Ob G2 G3 G4 HB HA HR Hf. pose proof HA as HA0. unfold for_code in HA. ats. norm.
  unfold iterate. eapply sim_bind; [ev Hc|]. intros [x st1] v1 R1. cbn [fst snd] in *.
  repeat match goal with H : at_ ?b [lab ?m] |- _ =>
    let HL := fresh "HL" in let HG := fresh "HG" in pose proof (at_lab _ _ _ _ _ _ _ H) as HL; pose proof (at_range _ _ _ _ _ _ H) as HG; rewrite <- HL in HG; clear H end.
  assert (EZ : env (labname (nl + 3)) = a + address (for_code nl l2 l3 l4)). { rewrite HL. unfold for_code. addr. }
  eapply sim_go. { eapply go_jumpif with (t := true) (o := x); eauto. }
  intros v2 R2. destruct (truthy x); cbn [Bool.eqb] in R2.
  - rewrite HL0 in R2. eapply sim_then; [use Hb|]. intros l' st' v3 F' R3 Hf3.
    eapply sim_go. { eapply go_jump with (n := nl + 1); eassumption. } intros v4 R4. rewrite HL1 in R4.
    eapply sim_then; [use Hu|]. intros l5 st5 v5 F5 R5 Hf5. replace (after sc u) with sc in Hf5 by (destruct u; try discriminate; reflexivity). eapply Hw; eauto. eapply rel_eq; [exact R5|]. addr.
  - eapply sim_go. { eapply go_jump with (n := nl + 3); eassumption. } intros v3 R3. apply sim_done. exists F. split; auto. eapply rel_eq; [exact R3|exact EZ].
Qed.

(** Variables. *)
Lemma fr_len vars l S F0 F : fr (Local vars) l S F0 F -> zlen (map Some (map snd l)) = zlen vars /\ zlen vars < 2 ^ 31 /\ 0 < zlen vars.
Proof.
  intros (H1 & H2 & H3 & _). apply few_nodup in H3 as [_ H3]. unfold zlen in *. rewrite <- H1 in *. rewrite !map_length in *. split; auto. split; auto. destruct l; [congruence|]. cbn [length]. lia.
Qed.
Lemma fr_get vars l S F0 F x i : fr (Local vars) l S F0 F -> index x vars = Some i ->
  0 <= i < zlen (map Some (map snd l)) /\ exists o, var_get l x = Some o /\ nth_error (map Some (map snd l)) (Z.to_nat i) = Some (Some o).
Proof.
  intros (H1 & H2 & _) HI. pose proof (index_var x l) as H. rewrite H1, HI in H. destruct H as (Hi & o & E1 & E2 & _). unfold zlen in *. rewrite !map_length. split; auto. exists o. split; auto.
  apply (map_nth_error Some). auto.
Qed.
Lemma fr_set vars l S F0 F x i o : fr (Local vars) l S F0 F -> index x vars = Some i ->
  fr (Local vars) (var_set l x o) S F0 (mkLs (slot_set (map Some (map snd l)) (Z.to_nat i) o) false :: F0).
Proof.
  intros (H1 & H2 & H3 & H4 & H5) HI. pose proof (index_var x l) as H. rewrite H1, HI in H. destruct H as (Hi & o' & E1 & E2 & E3). destruct (E3 o) as (E4 & E5).
  split; [congruence|]. split; [intro E; rewrite E in E4; cbn [map] in E4; rewrite <- E4 in H1; destruct l; [congruence|discriminate]|]. split; auto. split; auto.
  rewrite slot_set_in by (unfold zlen in *; rewrite !map_length; lia). rewrite E5, upd_map. reflexivity.
Qed.
Lemma fr_new vars l S F0 F x o : fr (Local vars) l S F0 F -> few (vars ++ [x]) = true ->
  fr (Local (vars ++ [x])) (l ++ [(x, o)]) S F0 (mkLs (slot_set (map Some (map snd l)) (Z.to_nat (zlen vars)) o) false :: F0).
Proof.
  intros (H1 & H2 & H3 & H4 & H5) HF. split; [rewrite map_app, H1; reflexivity|]. split; [destruct l; discriminate|]. split; auto. split; auto. rewrite !map_app. cbn [map snd].
  replace (Z.to_nat (zlen vars)) with (length (map Some (map snd l))) by (unfold zlen; rewrite <- H1, !map_length; lia). rewrite slot_set_end. reflexivity.
Qed.
Lemma fr_top sc l S F0 F x : fr sc l S F0 F -> slot sc x = None -> var_get l x = None.
Proof. destruct sc; cbn [fr slot]; [intros [-> _]; auto..|]. intros (H1 & _) HI. pose proof (index_var x l) as H. rewrite H1, HI in H. exact H. Qed.
Lemma sim_load n sc x g cd g' l st v a s S F0 F : gen_load sc x g = (cd, g') -> below g' -> at_ a cd -> rel v a (s :: S) F st -> fr sc l S F0 F ->
  sim n v (Done (var_val x l st)) (fun r v' => rel v' (a + address cd) ((r :: s) :: S) F st).
Proof.
  intros HG HB HA HR Hf. unfold gen_load in HG. destruct (slot sc x) as [i|] eqn:ES.
  - inversion HG; subst. destruct sc as [| |vars]; try discriminate. cbn [slot] in ES. destruct (fr_get _ _ _ _ _ _ _ Hf ES) as (Hi & o & E1 & E2). destruct (fr_len _ _ _ _ _ Hf) as (L1 & L2 & _).
    pose proof Hf as (_ & _ & _ & EF & _). unfold var_val. rewrite E1. rewrite EF in *.
    eapply sim_go; [eapply go_lload; [eassumption..|lia|eassumption|eassumption]|]. intros v' R'. apply sim_done. exact R'.
  - destruct (addstr g x) as [p g1] eqn:EA. inversion HG; subst. pose proof (below_str _ _ _ _ EA HB) as HI. ats. unfold var_val. rewrite (fr_top _ _ _ _ _ _ Hf ES).
    eapply sim_go; [eapply go_pushs; eassumption|]. intros v1 R1. eapply sim_go; [eapply go_gload; eassumption|]. intros v2 R2. apply sim_done. eapply rel_eq; [exact R2|]. addr.
Qed.
Lemma sim_callee n f args : ce n f -> ces n args -> calls n -> forall sc g l1 g1 l2 g2 l st v a s S F0 F, is_ref f = true -> ok_e sc f = true -> ok_es sc args = true -> count args < 2 ^ 31 - 1 ->
  gen_e sc f true g = (l1, g1) -> gen_es sc args g1 = (l2, g2) -> below g2 -> at_ a (l1 ++ l2 ++ [insn I_PUSHI (count args); ins I_CALLC]) -> rel v a (s :: S) F st -> fr sc l S F0 F ->
  sim n v (obind (eval n f l st) (fun '(f, st) => obind (evals n args l st) (fun '(vs, st) => call (K n) f vs st)))
    (fun r v' => rel v' (a + address l1 + address l2 + 6) ((fst r :: s) :: S) F (snd r)).
Proof.
  intros Hf Ha Hc sc g l1 g1 l2 g2 l st v a s S F0 F Hr Of Oa HN G1 G2 HB HA HR HF. ats. norm.
  eapply sim_bind; [eapply (Hf sc true); [eassumption|auto|eassumption|bel|eassumption|eassumption|eassumption]|]. intros [x st1] v1 (pre & Hp & R1). cbn [fst snd] in *.
  destruct pre as [|self [|]]; try discriminate. cbn [app] in R1.
  eapply sim_bind; [use Ha|]. intros [vs st2] v2 (HL & R2). cbn [fst snd] in *.
  eapply sim_go; [eapply go_pushi; [exact Hfine|eassumption|pose proof (count_nn args); lia|eassumption]|]. intros v3 R3. rewrite <- HL in R3.
  eapply sim_weak; [eapply Hc; [eassumption|lia|exact R3]|]. intros r v4 R4. eapply rel_eq; [exact R4|]. addr.
Qed.

Ltac labs := repeat match goal with H : at_ ?b [lab ?m] |- _ =>
    let HL := fresh "HL" in let HG := fresh "HG" in pose proof (at_lab _ _ _ _ _ _ _ H) as HL; pose proof (at_range _ _ _ _ _ _ H) as HG; rewrite <- HL in HG; clear H end.
Lemma post_eq sc a b s S F0 r v : post sc a s S F0 r v -> a = b -> post sc b s S F0 r v. Proof. intros H <-. auto. Qed.
Lemma then_done (o : out (@sres X)) : then_ o (fun l st => Done (None, l, st)) = o.
Proof. destruct o as [[[[x|] l] st]| | |]; reflexivity. Qed.
Lemma combine_fst {A B} (a : list A) : forall b : list B, length b = length a -> map fst (combine a b) = a.
Proof. induction a as [|x a IH]; intros [|y b] H; try discriminate; auto. cbn. rewrite IH; auto. Qed.
Lemma combine_snd {A B} (a : list A) : forall b : list B, length b = length a -> map snd (combine a b) = b.
Proof. induction a as [|x a IH]; intros [|y b] H; try discriminate; auto. cbn. rewrite IH; auto. Qed.
Ltac noref c := destruct c; [match goal with H : true = true -> _ |- _ => specialize (H eq_refl); discriminate end|].
Ltac pl := exists []; split; [reflexivity|]; cbn [app fst snd].
Lemma chunk_env gc : In gc chunks -> 0 <= env (labname (gc_label gc)) < size.
Proof. intro H. destruct (Hgood gc H) as (g0 & c & g1 & _ & _ & E & _). rewrite app_assoc in E. destruct (Hplace gc _ H E) as (HA & _). eapply at_range; eauto. Qed.
Lemma sim_endvars n v sc ss a k S F0 F l0 l st : ok_ss sc ss = true -> at_ a (endvars sc (afters sc ss)) -> fr sc l0 S F0 F -> forall F', rel v a (k :: S) F' st -> fr (afters sc ss) l S F0 F' ->
  sim n v (Done (None, firstn (length l0) l, st)) (post sc (a + address (endvars sc (afters sc ss))) k S F0).
Proof.
  intros HO HA Hf0 F' HR Hf. unfold endvars in *. destruct sc as [| |vars].
  - assert (H : forall ss, afters Top ss = Top) by (clear; induction ss as [|[] ? IH]; cbn [afters after declare]; auto). rewrite H in *.
    cbn [nvars Z.sub Z.add Z.opp Z.eqb address] in *. apply sim_done. exists F'. rewrite Z.add_0_r. split; auto. cbn [fr] in *. destruct Hf as [-> ->]. destruct l0; auto.
  - assert (H : forall ss, afters TopBlock ss = TopBlock) by (clear; induction ss as [|[] ? IH]; cbn [afters after declare]; auto). rewrite H in *.
    cbn [nvars Z.sub Z.add Z.opp Z.eqb address] in *. apply sim_done. exists F'. rewrite Z.add_0_r. split; auto. cbn [fr] in *. destruct Hf as [-> ->]. destruct l0; auto.
  - destruct (afters_local ss vars) as (d & E). rewrite E in *. pose proof (fr_len _ _ _ _ _ Hf) as (L1 & L2 & L3). pose proof (fr_len _ _ _ _ _ Hf0) as (K1 & K2 & K3).
    cbn [nvars] in *. rewrite zlen_app in *. replace (zlen vars + zlen d - zlen vars) with (zlen d) in * by lia.
    destruct Hf0 as (M1 & M2 & M3 & M4 & M5). destruct Hf as (N1 & N2 & N3 & N4 & N5).
    assert (EL : length l0 = length vars) by (rewrite <- M1, map_length; reflexivity).
    assert (ELl : length l = (length vars + length d)%nat) by (rewrite <- (map_length fst l), N1, app_length; reflexivity).
    assert (HFN : forall G, G = mkLs (map Some (map snd (firstn (length l0) l))) false :: F0 -> fr (Local vars) (firstn (length l0) l) S F0 G).
    { intros G ->. split; [|split; [|split; [auto|split; [auto|auto]]]].
      - rewrite <- firstn_map, N1, EL, firstn_app, Nat.sub_diag, firstn_O, app_nil_r, firstn_all. reflexivity.
      - destruct l0; [congruence|]. destruct l; [congruence|]. discriminate. }
    destruct (zlen d =? 0) eqn:ED.
    + apply Z.eqb_eq in ED. unfold zlen, str in *. cbn [address]. apply sim_done. exists F'. rewrite Z.add_0_r. split; auto. apply HFN. 
      assert (ED0 : length d = O) by lia. rewrite ED0, Nat.add_0_r, <- EL in ELl. rewrite (firstn_all2 l) by (rewrite <- ELl; constructor). exact N4.
    + apply Z.eqb_neq in ED. rewrite N4 in HR. pose proof (zlen_nonneg d). assert (HZ1 : 0 <= zlen d < zlen (map Some (map snd l))) by (unfold str in *; lia). assert (HZ2 : zlen (map Some (map snd l)) <= 2 ^ 31) by (unfold str in *; lia).
      eapply sim_go; [eapply go_lremove; eassumption|]. intros v1 R1. apply sim_done. eexists. split; [eapply rel_eq; [exact R1|addr]|].
      apply HFN. do 2 f_equal. rewrite !map_length, <- !firstn_map. f_equal. unfold zlen. lia.
Qed.

(** The meaning of the statements, one equation each. *)
Lemma exec_if n c b l st : exec n (S_if c b) l st = obind (eval n c l st) (fun '(x, st1) => if truthy x then exec_body n b l st1 else Done (None, l, st1)). Proof. reflexivity. Qed.
Lemma exec_ifelse n c b1 b2 l st : exec n (S_ifelse c b1 b2) l st = obind (eval n c l st) (fun '(x, st1) => if truthy x then exec_body n b1 l st1 else exec_body n b2 l st1). Proof. reflexivity. Qed.
Lemma exec_while n c b l st : exec n (S_while c b) l st = iterate strtof powf sid ref (K n) c None b l st. Proof. reflexivity. Qed.
Lemma exec_for n i c u b l st : exec n (S_for i c u b) l st = then_ (exec n i l st) (fun l1 st1 => iterate strtof powf sid ref (K n) c (Some u) b l1 st1). Proof. reflexivity. Qed.
Lemma exec_return n l st : exec n S_return l st = Done (Some ONil, l, st). Proof. reflexivity. Qed.
Lemma exec_returnval n e l st : exec n (S_returnval e) l st = obind (eval n e l st) (fun '(v, st1) => Done (Some v, l, st1)). Proof. reflexivity. Qed.
Lemma exec_fun n i x ps b l st : exec n (S_fun i x ps b) l st = Done (None, l, st). Proof. reflexivity. Qed.
Lemma exec_block n ss l st : exec_body n (Block ss) l st = obind (exec_all n ss l st) (fun '(r, l', st') => Done (r, firstn (length l) l', st')). Proof. reflexivity. Qed.
Lemma exec_single n s l st : exec_body n (Single s) l st = exec n s l st. Proof. reflexivity. Qed.
Lemma exec_nil n l st : exec_all n Ss_nil l st = Done (None, l, st). Proof. reflexivity. Qed.
Lemma exec_cons n s ss l st : exec_all n (Ss_cons s ss) l st = then_ (exec n s l st) (fun l1 st1 => exec_all n ss l1 st1). Proof. reflexivity. Qed.

Lemma main n : calls n -> whiles n -> fors n ->
  (forall e, ce n e) /\ (forall es, ces n es) /\ (forall f, cf n f) /\ (forall s, cs n s) /\ (forall b, cb n b) /\ (forall ss, css n ss).
Proof.
  intros HC HW HF. apply ast_ind.
  - (* nil *) intros sc c g cd g' l st v a s S F0 F HO Hc HG HB HA HR Hf. noref c. cbn [gen_e Source.eval] in *. inversion HG; subst. ats.
    eapply sim_go; [eapply go_pushnil; eassumption|]. intros v1 R1. apply sim_done. pl. exact R1.
  - (* number *) intros t sc c g cd g' l st v a s S F0 F HO Hc HG HB HA HR Hf. noref c. cbn [gen_e Source.eval] in *. inversion HG; subst.
    eapply sim_go; [eapply go_num; eassumption|]. intros v1 R1. apply sim_done. pl. eapply rel_eq; [exact R1|]. unfold num_line. destruct (dotted t); addr.
  - (* string *) intros t sc c g cd g' l st v a s S F0 F HO Hc HG HB HA HR Hf. noref c. cbn [gen_e Source.eval] in *. gens. inversion HG; subst. pose proof (below_str _ _ _ _ Heqp HB) as HI.
    eapply sim_go; [eapply go_pushs; eassumption|]. intros v1 R1. apply sim_done. pl. unfold sid. rewrite HI. exact R1.
  - (* variable *) intros x sc c g cd g' l st v a s S F0 F HO Hc HG HB HA HR Hf. cbn [gen_e Source.eval] in *. destruct (gen_load sc x g) as [l1 g1] eqn:EL. inversion HG; subst. ats.
    change (Done (var_val x l st, st)) with (obind (Done (var_val x l st)) (fun r => Done (r, st))). destruct c; cbn [when] in *.
    + eapply sim_go; [eapply go_pushnil; eassumption|]. intros v1 R1. eapply sim_bind; [eapply sim_load; eassumption|]. intros r v2 R2. apply sim_done.
      exists [ONil]. split; [reflexivity|]. eapply rel_eq; [exact R2|]. addr.
    + cbn [address] in *. rewrite Z.add_0_r in *. eapply sim_bind; [eapply sim_load; eassumption|]. intros r v2 R2. apply sim_done. pl. exact R2.
  - (* unary *) intros u e IH sc c g cd g' l st v a s S F0 F HO Hc HG HB HA HR Hf. noref c. cbn [gen_e Source.eval Source.ok_e] in *. gens. inversion HG; subst. ats.
    eapply sim_bind; [ev IH|]. intros [x st1] v1 R1. cbn [fst snd] in *. eapply sim_bind; [eapply sim_un; eassumption|]. intros r v2 R2. apply sim_done. pl. eapply rel_eq; [exact R2|]. destruct u; addr.
  - (* binary *) intros b e1 IH1 e2 IH2 sc c g cd g' l st v a s S F0 F HO Hc HG HB HA HR Hf. noref c. cbn [gen_e Source.eval Source.ok_e] in *. apply andb_true_iff in HO as [O1 O2]. gens. inversion HG; subst. ats.
    eapply sim_bind; [ev IH1|]. intros [x st1] v1 R1. cbn [fst snd] in *. eapply sim_bind; [ev IH2|]. intros [y st2] v2 R2. cbn [fst snd] in *.
    eapply sim_bind; [eapply sim_bin; eassumption|]. intros r v3 R3. apply sim_done. pl. eapply rel_eq; [exact R3|]. destruct b; addr.
  - (* table *) intros fs IH sc c g cd g' l st v a s S F0 F HO Hc HG HB HA HR Hf. noref c. cbn [gen_e Source.eval Source.ok_e] in *. gens. inversion HG; subst. ats.
    eapply sim_go; [eapply go_pusht; eassumption|]. intros v1 R1. eapply sim_bind; [use IH|]. intros st2 v2 R2. apply sim_done. pl. eapply rel_eq; [exact R2|]. addr.
  - (* element *) intros e1 IH1 e2 IH2 sc c g cd g' l st v a s S F0 F HO Hc HG HB HA HR Hf. cbn [gen_e Source.eval Source.ok_e] in *. apply andb_true_iff in HO as [O1 O2]. gens. inversion HG; subst. ats.
    eapply sim_bind; [ev IH1|]. intros [x st1] v1 R1. cbn [fst snd] in *. destruct c; cbn [when address] in *; rewrite ?Z.add_0_r in *.
    + eapply sim_go; [eapply go_dup; eassumption|]. intros v2 R2. eapply sim_bind; [ev IH2|]. intros [y st2] v3 R3. cbn [fst snd] in *.
      eapply sim_bind; [eapply sim_tget; eassumption|]. intros r v4 R4. apply sim_done. exists [x]. split; [reflexivity|]. eapply rel_eq; [exact R4|]. addr.
    + eapply sim_bind; [ev IH2|]. intros [y st2] v3 R3. cbn [fst snd] in *.
      eapply sim_bind; [eapply sim_tget; eassumption|]. intros r v4 R4. apply sim_done. pl. eapply rel_eq; [exact R4|]. addr.
  - (* call *) intros f IH1 args IH2 sc c g cd g' l st v a s S F0 F HO Hc HG HB HA HR Hf. cbn [gen_e Source.eval Source.ok_e] in *. apply andb_true_iff in HO as [HO O3]. apply andb_true_iff in HO as [O1 O2].
    apply andb_true_iff in O3 as [O3 O4]. apply Z.ltb_lt in O4. gens. inversion HG; subst. clear HG. apply at_app in HA as [HA1 HA2]. destruct c; cbn [when address] in *.
    + eapply sim_go; [eapply go_pushnil; eassumption|]. intros v1 R1. eapply sim_weak; [eapply (sim_callee n f args IH1 IH2 HC); eassumption|]. intros r v2 R2. exists [ONil]. split; [reflexivity|]. eapply rel_eq; [exact R2|]. addr.
    + rewrite Z.add_0_r in *. eapply sim_weak; [eapply (sim_callee n f args IH1 IH2 HC); eassumption|]. intros r v2 R2. pl. eapply rel_eq; [exact R2|]. addr.
  - (* lambda *) intros id ps b _ sc c g cd g' l st v a s S F0 F HO Hc HG HB HA HR Hf. noref c. cbn [gen_e Source.eval Source.ok_e] in *. gens. inversion HG; subst. clear HG.
    match type of HB with below (mkG _ _ (_ ++ ?gc :: _)) => assert (HI : In gc chunks) by (apply (proj2 HB); cbn [g_chunks]; apply in_or_app; right; left; reflexivity); pose proof (Href _ HI) as HE; pose proof (chunk_env _ HI) as HV end.
    cbn [gc_fn fn_id gc_label] in *. eapply sim_go; [eapply (go_pushl _ _ _ _ _ _ _ _ _ Hfine v a s S F st (g_lab g)); [eassumption|lia| |eassumption]|].
    { instantiate (1 := match l with [] => [ONil] | _ => map snd l end). destruct sc as [| |vars]; cbn [fr] in Hf.
      - destruct Hf as [-> ->]. reflexivity.
      - destruct Hf as [-> ->]. reflexivity.
      - destruct Hf as (_ & HN & _ & -> & _). destruct l; [congruence|]. reflexivity. }
    intros v1 R1. apply sim_done. pl. unfold fun_val. rewrite HE. exact R1.
  - (* no expression *) intros sc g cd g' l st v a s S F0 F HO HG HB HA HR Hf. cbn [gen_es Source.evals] in *. inversion HG; subst. apply sim_done. cbn [address count fst snd rev app]. rewrite Z.add_0_r. auto.
  - (* expressions *) intros e IH1 es IH2 sc g cd g' l st v a s S F0 F HO HG HB HA HR Hf. cbn [gen_es Source.evals Source.ok_es] in *. apply andb_true_iff in HO as [O1 O2]. gens. inversion HG; subst. ats.
    eapply sim_bind; [ev IH1|]. intros [x st1] v1 R1. cbn [fst snd] in *. eapply sim_bind; [use IH2|]. intros [xs st2] v2 (HL & R2). cbn [fst snd] in *. apply sim_done. cbn [fst snd count rev]. split.
    + rewrite zlen_cons. lia.
    + rewrite <- app_assoc. eapply rel_eq; [exact R2|]. addr.
  - (* no field *) intros sc g cd g' l st v a t s S F0 F HO HG HB HA HR Hf. cbn [gen_f Source.fill] in *. inversion HG; subst. apply sim_done. cbn [address]. rewrite Z.add_0_r. auto.
  - (* fields *) intros k IHk e IHe fs IHf sc g cd g' l st v a t s S F0 F HO HG HB HA HR Hf. cbn [gen_f Source.fill Source.ok_f] in *. apply andb_true_iff in HO as [HO O3]. apply andb_true_iff in HO as [O1 O2]. gens. inversion HG; subst. ats.
    eapply sim_go; [eapply go_dup; eassumption|]. intros v0 R0. eapply sim_bind; [ev IHk|]. intros [x st1] v1 R1. cbn [fst snd] in *. eapply sim_bind; [ev IHe|]. intros [y st2] v2 R2. cbn [fst snd] in *.
    eapply sim_bind; [eapply sim_tput; eassumption|]. intros st3 v3 R3. eapply sim_weak; [use IHf|]. intros st4 v4 R4. eapply rel_eq; [exact R4|]. addr.
  - (* var *) intros x sc g cd g' l st v a k S F0 F HO HG HB HA HR Hf. cbn [gen_s Source.exec Source.ok_s after] in *. unfold declarable in HO. destruct sc as [| |vars]; try discriminate.
    + gens. inversion HG; subst. ats. pose proof (below_str _ _ _ _ Heqp HB) as HI. destruct Hf as [-> ->]. cbn [is_top new_var].
      eapply sim_go; [eapply go_pushs; eassumption|]. intros v1 R1. eapply sim_go; [eapply go_pushnil; eassumption|]. intros v2 R2. eapply sim_go; [eapply go_gstore; eassumption|]. intros v3 R3.
      apply sim_done. exists []. split; [eapply rel_eq; [exact R3|addr]|]. split; reflexivity.
    + inversion HG; subst. ats. pose proof (fr_len _ _ _ _ _ Hf) as (L1 & L2 & L3). pose proof Hf as (_ & HN & _ & EF & _). replace (is_top l) with false by (destruct l; [congruence|reflexivity]). cbn [new_var]. rewrite EF in HR.
      eapply sim_go; [eapply go_pushnil; eassumption|]. intros v1 R1. assert (HZ : 0 <= zlen vars < 2 ^ 31) by (unfold str in *; lia). assert (HY : zlen vars <= zlen (map Some (map snd l))) by (pose proof Hf as (EV & _); rewrite <- EV; unfold zlen; rewrite !map_length; lia). eapply sim_go; [eapply go_lstore; eassumption|]. intros v2 R2.
      apply sim_done. eexists. split; [eapply rel_eq; [exact R2|addr]|]. eapply fr_new; eauto.
  - (* var with a value *) intros x e IH sc g cd g' l st v a k S F0 F HO HG HB HA HR Hf. cbn [gen_s Source.exec Source.ok_s after] in *. apply andb_true_iff in HO as [HO O1]. unfold declarable in HO. destruct sc as [| |vars]; try discriminate.
    + gens. inversion HG; subst. ats. assert (HB0 : below g0) by bel. pose proof (below_str _ _ _ _ Heqp HB0) as HI. pose proof Hf as [El EF]. rewrite El. cbn [is_top]. rewrite <- El.
      eapply sim_go; [eapply go_pushs; eassumption|]. intros v1 R1. eapply sim_bind; [ev IH|]. intros [y st1] v2 R2. cbn [fst snd] in *. eapply sim_go; [eapply go_gstore; eassumption|]. intros v3 R3.
      apply sim_done. exists F. split; [eapply rel_eq; [exact R3|addr]|]. exact Hf.
    + gens. inversion HG; subst. ats. pose proof (fr_len _ _ _ _ _ Hf) as (L1 & L2 & L3). pose proof Hf as (_ & HN & _ & EF & _). replace (is_top l) with false by (destruct l; [congruence|reflexivity]). rewrite EF in HR.
      eapply sim_go; [eapply go_pushnil; eassumption|]. intros v1 R1. assert (HZ : 0 <= zlen vars < 2 ^ 31) by (unfold str in *; lia). assert (HY : zlen vars <= zlen (map Some (map snd l))) by (pose proof Hf as (EV & _); rewrite <- EV; unfold zlen; rewrite !map_length; lia). eapply sim_go; [eapply go_lstore with (a := a + 1); eassumption|]. intros v2 R2.
      pose proof (fr_new _ _ _ _ _ x ONil Hf HO) as Hf2. cbn [declare] in *. eapply sim_bind; [ev IH|]. intros [y st1] v3 R3. cbn [fst snd] in *.
      pose proof (index_last x vars (few_app_notin _ _ _ HO)) as HI. pose proof (fr_set _ _ _ _ _ x _ y Hf2 HI) as Hf3. pose proof Hf2 as (_ & _ & _ & EF2 & _). rewrite EF2 in R3.
      destruct (fr_get _ _ _ _ _ _ _ Hf2 HI) as (Hi & _). assert (HY2 := Z.lt_le_incl _ _ (proj2 Hi)). eapply sim_go; [eapply go_lstore; eassumption|]. intros v4 R4. apply sim_done. eexists. split; [eapply rel_eq; [exact R4|addr]|]. exact Hf3.
  - (* assignment *) intros x e IH sc g cd g' l st v a k S F0 F HO HG HB HA HR Hf. cbn [gen_s Source.exec Source.ok_s after] in *. destruct (slot sc x) as [i|] eqn:ES.
    + gens. inversion HG; subst. ats. destruct sc as [| |vars]; try discriminate. cbn [slot] in ES. destruct (fr_get _ _ _ _ _ _ _ Hf ES) as (Hi & o & E1 & E2). pose proof (fr_len _ _ _ _ _ Hf) as (L1 & L2 & L3).
      assert (HZ : 0 <= i < 2 ^ 31) by (unfold str in *; lia). assert (HY := Z.lt_le_incl _ _ (proj2 Hi)). eapply sim_bind; [ev IH|]. intros [y st1] v1 R1. cbn [fst snd] in *. unfold assign. rewrite E1. pose proof Hf as (_ & _ & _ & EF & _). rewrite EF in R1.
      eapply sim_go; [eapply go_lstore; eassumption|]. intros v2 R2. apply sim_done. eexists. split; [eapply rel_eq; [exact R2|addr]|]. eapply fr_set; eauto.
    + gens. inversion HG; subst. ats. assert (HB0 : below g0) by bel. pose proof (below_str _ _ _ _ Heqp HB0) as HI.
      eapply sim_go; [eapply go_pushs; eassumption|]. intros v1 R1. eapply sim_bind; [ev IH|]. intros [y st1] v2 R2. cbn [fst snd] in *. unfold assign. rewrite (fr_top _ _ _ _ _ _ Hf ES).
      eapply sim_go; [eapply go_gstore; eassumption|]. intros v3 R3. apply sim_done. exists F. split; [eapply rel_eq; [exact R3|addr]|]. exact Hf.
  - (* element *) intros e1 IH1 e2 IH2 e3 IH3 sc g cd g' l st v a k S F0 F HO HG HB HA HR Hf. cbn [gen_s Source.exec Source.ok_s after] in *. apply andb_true_iff in HO as [HO O3]. apply andb_true_iff in HO as [O1 O2]. gens. inversion HG; subst. ats.
    eapply sim_bind; [ev IH1|]. intros [x st1] v1 R1. cbn [fst snd] in *. eapply sim_bind; [ev IH2|]. intros [y st2] v2 R2. cbn [fst snd] in *. eapply sim_bind; [ev IH3|]. intros [z st3] v3 R3. cbn [fst snd] in *.
    eapply sim_bind; [eapply sim_tput; eassumption|]. intros st4 v4 R4. apply sim_done. exists F. split; [eapply rel_eq; [exact R4|addr]|]. exact Hf.
  - (* call *) intros f IH1 args IH2 sc g cd g' l st v a k S F0 F HO HG HB HA HR Hf. cbn [gen_s Source.exec Source.ok_s after] in *. apply andb_true_iff in HO as [HO O3]. apply andb_true_iff in HO as [O1 O2].
    apply andb_true_iff in O3 as [O3 O4]. apply Z.ltb_lt in O4. gens. inversion HG; subst. clear HG.
    change [insn I_PUSHI (count args); ins I_CALLC; ins I_POP] with ([insn I_PUSHI (count args); ins I_CALLC] ++ [ins I_POP]) in *. rewrite !app_assoc in HA. rewrite <- (app_assoc l0) in HA. apply at_app in HA as [HA1 HA2].
    pose proof (sim_callee n f args IH1 IH2 HC sc g l0 g0 l1 g' l st v a k S F0 F O3 O1 O2 O4 Heqp Heqp0 HB HA1 HR Hf) as H.
    replace (obind (eval n f l st) _) with (obind (obind (eval n f l st) (fun '(f, st) => obind (evals n args l st) (fun '(vs, st) => call (K n) f vs st))) (fun '(_, st) => Done (@None obj, l, st))).
    2: { destruct (eval n f l st) as [[y st1]| | |]; auto. cbn [obind]. destruct (evals n args l st1) as [[vs st2]| | |]; auto. }
    eapply sim_bind; [exact H|]. intros [y st1] v1 R1. cbn [fst snd] in *. assert (HA3 : at_ (a + address l0 + address l1 + 6) [ins I_POP]) by (eapply at_eq; [exact HA2|addr]).
    eapply sim_go; [eapply go_pop; eassumption|]. intros v2 R2. apply sim_done. exists F. split; [eapply rel_eq; [exact R2|addr]|]. exact Hf.
  - (* if *) intros c IH1 b IH2 sc g cd g' l st v a k S F0 F HO HG HB HA HR Hf. cbn [gen_s Source.ok_s after] in *. rewrite exec_if. apply andb_true_iff in HO as [O1 O2]. gens. inversion HG; subst. clear HG. ats. norm. labs.
    eapply sim_bind; [ev IH1|]. intros [x st1] v1 R1. cbn [fst snd] in *.
    eapply sim_go. { eapply go_jumpif with (t := false) (o := x); eauto. } intros v2 R2. destruct (truthy x); cbn [Bool.eqb] in R2.
    + eapply sim_weak; [use IH2|]. intros [[r l'] st'] v3 HP. eapply post_eq; [exact HP|]. addr.
    + apply sim_done. exists F. split; [|exact Hf]. eapply rel_eq; [exact R2|]. rewrite HL. addr.
  - (* if else *) intros c IH1 b1 IH2 b2 IH3 sc g cd g' l st v a k S F0 F HO HG HB HA HR Hf. cbn [gen_s Source.ok_s after] in *. rewrite exec_ifelse. apply andb_true_iff in HO as [HO O3]. apply andb_true_iff in HO as [O1 O2]. gens. inversion HG; subst. clear HG. ats. norm. labs.
    eapply sim_bind; [ev IH1|]. intros [x st1] v1 R1. cbn [fst snd] in *.
    eapply sim_go. { eapply go_jumpif with (t := false) (o := x); eauto. } intros v2 R2. destruct (truthy x); cbn [Bool.eqb] in R2.
    + rewrite <- (then_done (exec_body n b1 l st1)). eapply sim_then; [use IH2|]. intros l' st' v3 F' R3 Hf3.
      eapply sim_go. { eapply go_jump with (n := g_lab g + 1); eassumption. } intros v4 R4. apply sim_done. exists F'. split; [|exact Hf3]. eapply rel_eq; [exact R4|]. rewrite HL. addr.
    + rewrite HL0 in R2. eapply sim_weak; [use IH3|]. intros [[r l'] st'] v3 HP. eapply post_eq; [exact HP|]. addr.
  - (* while *) intros c IH1 b IH2 sc g cd g' l st v a k S F0 F HO HG HB HA HR Hf. cbn [gen_s Source.ok_s after] in *. rewrite exec_while. apply andb_true_iff in HO as [O1 O2]. gens. inversion HG; subst. clear HG.
    eapply (while_iter n c b IH1 IH2 HW); eassumption.
  - (* for *) intros i IH0 c IH1 u IH2 b IH3 sc g cd g' l st v a k S F0 F HO HG HB HA HR Hf. cbn [gen_s Source.ok_s after] in *. rewrite exec_for. apply andb_true_iff in HO as [HO' HO]. apply andb_true_iff in HO' as [P1 P2].
    apply andb_true_iff in HO as [HO O4]. apply andb_true_iff in HO as [HO O3]. apply andb_true_iff in HO as [O1 O2]. gens. inversion HG; subst. clear HG. apply at_app in HA as [HA1 HA2].
    eapply sim_then; [use IH0|]. intros l' st' v1 F' R1 Hf1. replace (after sc i) with sc in Hf1 by (destruct i; try discriminate; reflexivity).
    eapply sim_weak; [eapply (for_iter n c u b IH1 IH2 IH3 HF); eassumption|]. intros [[r l''] st''] v3 HP. eapply post_eq; [exact HP|]. unfold for_code. addr.
  - (* return *) intros sc g cd g' l st v a k S F0 F HO HG HB HA HR Hf. cbn [gen_s Source.ok_s after] in *. rewrite exec_return. destruct sc as [| |vars]; try discriminate. inversion HG; subst. destruct Hf as (_ & _ & _ & -> & ra & s0 & S0 & -> & Hra).
    destruct (rel_run _ _ _ _ _ _ fine _ _ _ _ _ _ _ _ HA HR) as [[HC' _] _]. eapply sim_go; [eapply go_ret0; [eassumption..|reflexivity|eassumption|reflexivity]|]. intros v1 R1. apply sim_done. exists ra, s0, S0. auto.
  - (* return a value *) intros e IH sc g cd g' l st v a k S F0 F HO HG HB HA HR Hf. cbn [gen_s Source.ok_s after] in *. rewrite exec_returnval. apply andb_true_iff in HO as [HO O1]. destruct sc as [| |vars]; try discriminate. gens. inversion HG; subst. clear HG. ats.
    pose proof Hf as (_ & _ & _ & EF & ra & s0 & S0 & ES & Hra). eapply sim_bind; [ev IH|]. intros [x st1] v1 R1. cbn [fst snd] in *. rewrite EF, ES in R1.
    eapply sim_go; [eapply go_ret1; [eassumption..|reflexivity|eassumption]|]. intros v2 R2. apply sim_done. exists ra, s0, S0. auto.
  - (* function *) intros id x ps b _ sc g cd g' l st v a k S F0 F HO HG HB HA HR Hf. cbn [gen_s Source.ok_s after] in *. rewrite exec_fun. gens. inversion HG; subst. apply sim_done. exists F. cbn [address]. rewrite Z.add_0_r. auto.
  - (* block *) intros ss IH sc g cd g' l st v a k S F0 F HO HG HB HA HR Hf. cbn [gen_b Source.ok_b] in *. rewrite exec_block. gens. inversion HG; subst. clear HG. ats. assert (Hf' : fr (inner sc) l S F0 F) by (destruct sc; exact Hf).
    eapply sim_bind; [use IH|]. intros [[[x|] l'] st'] v1 HP; cbn [post] in HP.
    + apply sim_done. exact HP.
    + destruct HP as (F' & R1 & Hf1). eapply sim_weak; [eapply sim_endvars; eassumption|]. intros [[r l''] st''] v2 HP. rewrite address_cat, Z.add_assoc. destruct sc; exact HP.
  - (* one statement *) intros s IH sc g cd g' l st v a k S F0 F HO HG HB HA HR Hf. cbn [gen_b Source.ok_b] in *. rewrite exec_single. apply andb_true_iff in HO as [O1 O2]. replace sc with (after sc s) at 1 by (destruct s; try discriminate; reflexivity). use IH.
  - (* no statement *) intros sc g cd g' l st v a k S F0 F HO HG HB HA HR Hf. cbn [gen_ss afters] in *. rewrite exec_nil. inversion HG; subst. apply sim_done. exists F. cbn [address]. rewrite Z.add_0_r. auto.
  - (* statements *) intros s IH1 ss IH2 sc g cd g' l st v a k S F0 F HO HG HB HA HR Hf. cbn [gen_ss Source.ok_ss afters] in *. rewrite exec_cons. apply andb_true_iff in HO as [O1 O2]. gens. inversion HG; subst. clear HG. ats.
    eapply sim_then; [use IH1|]. intros l' st' v1 F' R1 Hf1. eapply sim_weak; [use IH2|]. intros [[r l''] st''] v2 HP. eapply post_eq; [exact HP|]. addr.
Qed.

(** A call. *)
Lemma firstn_rev (vs : list obj) s : firstn (length vs) (rev vs ++ s) = rev vs.
Proof. rewrite firstn_app, rev_length, Nat.sub_diag, firstn_O, app_nil_r, <- rev_length, firstn_all. reflexivity. Qed.
Lemma skipn_rev (vs : list obj) f self s : skipn (S (S (length vs))) (rev vs ++ f :: self :: s) = s.
Proof. rewrite skipn_app, rev_length, skipn_all2 by (rewrite rev_length; lia). replace (S (S (length vs)) - length vs)%nat with 2%nat by lia. reflexivity. Qed.
Lemma nth_rev (vs : list obj) f s : nth_error (rev vs ++ f :: s) (length vs) = Some f.
Proof. rewrite nth_error_app2 by (rewrite rev_length; lia). rewrite rev_length, Nat.sub_diag. reflexivity. Qed.
Lemma call_eq (v : vm X) vs f self s : stack v = OInt (zlen vs) :: rev vs ++ f :: self :: s -> zlen vs < 2 ^ 31 - 1 ->
  match f with
  | OClos true r cap => exists v', vm_call flist v false = Ok v' /\ v' = set_pc (set_oldpc (set_stacks (set_lsymts v (mkLs (map Some (cap ++ vs)) false :: v_lsymts v)) ([] :: (OInt (v_pc v) :: s) :: tl (v_stacks v))) (v_pc v)) r
  | OClos false i cap => 0 <= i < zlen flist -> vm_call flist v false = match nth_error flist (Z.to_nat i) with
      | Some f => f (set_stacks (set_lsymts v (mkLs (map Some (cap ++ vs)) false :: v_lsymts v)) ([] :: (OInt (v_pc v) :: s) :: tl (v_stacks v)))
      | None => UB end
  | _ => vm_call flist v false = Ok (err (set_stack v (rev vs ++ f :: self :: s)) E_TYPE)
  end.
Proof.
  intros HS HZ. set (m := zlen vs + 1). pose proof (zlen_nonneg vs).
  assert (C1 : (m >=? 2 ^ 31) = false) by (unfold m; lia).
  assert (C2 : (zlen (rev vs ++ f :: self :: s) - m <? 0) = false) by (unfold m, zlen; rewrite app_length, rev_length; cbn [length]; lia).
  assert (C3 : (1 <=? m) = true) by (unfold m; lia). assert (C4 : Z.to_nat (m - 1) = length vs) by (unfold m, zlen; lia). assert (C5 : Z.to_nat (zlen vs) = length vs) by (unfold zlen; lia).
  assert (EQ : forall k, vm_call flist v false = k <-> (
     (if otype f =? T_CLOSURE then match f with OClos native ref actrec =>
              let v1 := set_stack v (rev vs ++ f :: self :: s) in
              if negb native && (zlen flist <=? ref) then Ok (err v1 E_FLIST)
              else
                let ls := mkLs (map Some actrec ++ rev (map Some (rev vs))) false in
                let v2 := set_lsymts v1 (ls :: v_lsymts v1) in
                let v3 := set_stack v2 s in
                let v4 := push v3 (OInt (v_pc v3)) in
                let v5 := set_stacks v4 ([] :: v_stacks v4) in
                if native then Ok (set_pc (set_oldpc v5 (v_pc v5)) ref)
                else if ref <? 0 then UB
                else match nth_error flist (Z.to_nat ref) with
                     | Some f => f v5
                     | None => UB
                     end
              | _ => UB end else Ok (err (set_stack v (rev vs ++ f :: self :: s)) E_TYPE)) = k)).
  { intro k. unfold vm_call, stack_assert, type_assert, stack_at. rewrite HS. fold m. rewrite C1.
    assert (C6 : (zlen (OInt (zlen vs) :: rev vs ++ f :: self :: s) - 1 <? 0) = false) by (unfold zlen; cbn [length]; lia). rewrite C6.
    change (1 <=? 1) with true. cbv iota. change (Z.to_nat (1 - 1)) with O. cbn [nth_error bind otype]. change (T_INT =? T_INT) with true. cbv iota.
    change (stack (set_stack v (rev vs ++ f :: self :: s))) with (rev vs ++ f :: self :: s). rewrite C2, C3, C4, C5, nth_rev, firstn_rev, skipn_rev. cbn [bind]. tauto. }
  destruct f; try exact (proj2 (EQ _) eq_refl). destruct native.
  - eexists. split; [apply (proj2 (EQ _)); reflexivity|]. cbn. rewrite map_rev, rev_involutive, map_app. reflexivity.
  - intro Hi. apply (proj2 (EQ _)). cbn [otype]. rewrite Z.eqb_refl. cbn [negb andb]. replace (zlen flist <=? ref0) with false by lia. replace (ref0 <? 0) with false by lia.
    rewrite map_rev, rev_involutive, map_app. reflexivity.
Qed.
Lemma call_step f vs st v a self s S F : at_ a [ins I_CALLC] -> zlen vs < 2 ^ 31 - 1 -> rel v a ((OInt (zlen vs) :: rev vs ++ f :: self :: s) :: S) F st ->
  match f with
  | OClos true r cap => 0 <= r < size -> goes v r ([] :: (OInt (a + 1) :: s) :: S) (mkLs (map Some (cap ++ vs)) false :: F) st
  | OClos false i cap => forall n, sim n v (cfun i (cap ++ vs) st) (fun r v' => rel v' (a + 1) ((fst r :: s) :: S) F (snd r))
  | _ => exists v', fstep v v' /\ v_state v' = S_ERROR /\ v_error v' = E_TYPE
  end.
Proof.
  intros HA HZ HR. destruct (rel_run _ _ _ _ _ _ fine _ _ _ _ _ _ _ _ HA HR) as [HC _]. pose proof (rel_stack _ _ _ _ _ _ _ _ HR) as HS. assert (HF : fine v) by (eapply run_fine; [exact Hfine|exact HR|exact HC|discriminate]). destruct HR as [R1 R2 R3 R4 R4' R5].
  pose proof (step_at flist powf code size v _ (proj1 HC)) as HE. cbn [Vm.exec] in HE. rewrite (run_inc code size v _ _ HC) in HE.
  pose proof (call_eq (bump v) vs f self s HS HZ) as HQ.
  destruct f; try (rewrite HQ in HE; unfold if_ready in HE; cbn [bind] in HE; eexists; split; [split; [exact HF|exact HE]|split; reflexivity]).
  destruct native.
  2: { intro n. destruct Hcfun as [HU HD]. destruct (Z_lt_dec ref0 0) as [Hn|Hn]; [rewrite HU by lia; exact I|]. destruct (Z_le_dec (zlen flist) ref0) as [Hm|Hm]; [rewrite HU by lia; exact I|].
    rewrite (HQ ltac:(lia)) in HE. destruct (nth_error flist (Z.to_nat ref0)) as [f|] eqn:EN.
    2: { apply nth_error_None in EN. unfold zlen in Hm. lia. }
    match type of HE with context [f ?w] => set (w0 := w) in HE end. destruct R5 as [K1 K2 K2' K3 K4 K5 K6].
    assert (Ha1 : 0 <= a + 1 < size) by (pose proof (at_range _ _ _ _ _ _ HA); destruct HA as (_ & _ & K7 & K8); cbn in K8; lia).
    assert (ES : v_stacks w0 = [] :: (OInt (a + 1) :: s) :: S) by (subst w0; cbn; rewrite R3, R2; reflexivity).
    assert (EL : v_lsymts w0 = mkLs (map Some (actrec ++ vs)) false :: F) by (subst w0; cbn; rewrite R4; reflexivity).
    pose proof (HD ref0 f (actrec ++ vs) st w0 (a + 1) s S F ltac:(lia) EN R1 K6 ES EL K1 K2 K5 K2') as HH. unfold if_ready in HE.
    destruct (cfun ref0 (actrec ++ vs) st) as [[r st']| | |]; [| |exact I|contradiction].
    - destruct HH as (v' & E1 & E2 & E3 & E4 & E5 & E6 & E7 & E8 & E9 & E10 & E11 & E12). rewrite E1 in HE. cbn [bind] in HE. rewrite E2 in HE. cbn [is_ready] in HE. unfold assert_pc in HE. rewrite E4 in HE.
      replace (pc_ok size (a + 1)) with true in HE by (unfold pc_ok; lia). eapply sim_step; [split; [exact HF|exact HE]|]. apply sim_done. cbn [fst snd]. split; auto.
      split; auto; [rewrite E7; exact K3|]. intros y p Hy. rewrite E8, (K4 y p Hy). unfold global. rewrite E7. reflexivity.
    - destruct HH as (v' & E1 & E2 & E3). rewrite E1 in HE. cbn [bind] in HE. rewrite E2 in HE. cbn [is_ready] in HE. eapply sim_fail; [split; [exact HF|exact HE]|exact E2|exact E3]. }
  intro Hr. destruct HQ as (v1 & HQ & E1). rewrite HQ in HE. unfold if_ready in HE. cbn [bind] in HE.
  assert (P1 : v_state v1 = S_READY) by (rewrite E1; exact R1). assert (P2 : v_pc v1 = ref0) by (rewrite E1; reflexivity). rewrite P1 in HE. cbn [is_ready] in HE. unfold assert_pc in HE. rewrite P2 in HE.
  replace (pc_ok size ref0) with true in HE by (unfold pc_ok; lia). split; [exact HF|]. exists v1. split; [exact HE|]. split; auto.
  - rewrite E1. cbn. rewrite R3, R2. reflexivity.
  - rewrite E1. cbn. rewrite R4. reflexivity.
  - intros f [<-|Hf]; [|auto]. cbn [ls_syms]. intro H. apply in_map_iff in H as (? & H & _). discriminate.
  - rewrite E1. apply (like_of sm_ok strs v); auto.
Qed.
Lemma sim_after {A B} n v (x : A) Q (o : out B) Q' : sim n v (Done x) Q -> (forall v', Q x v' -> sim n v' o Q') -> sim n v o Q'.
Proof. intros (k & v' & HS & HQ) H. apply (sim_le flist powf code size fine (k + n)); [lia|]. eapply sim_steps; eauto. Qed.
Lemma find_in (p : func -> bool) : forall cs fn, find p (map gc_fn cs) = Some fn -> exists gc, In gc cs /\ gc_fn gc = fn /\ p fn = true.
Proof.
  intros cs0 fn H. apply find_some in H as [H1 H2]. apply in_map_iff in H1 as (gc & E & HI). exists gc. auto.
Qed.
(** The body of a function, entered with its arguments in the frame. *)
Lemma body_sim n gc cap vs st v p s S F : (forall ss, css n ss) -> In gc chunks -> zlen (cap ++ vs) = zlen (fn_vars (gc_fn gc)) -> 0 <= p < size ->
  rel v (env (labname (gc_label gc))) ([] :: (OInt p :: s) :: S) (mkLs (map Some (cap ++ vs)) false :: F) st ->
  sim n v (obind (exec_all n (fn_body (gc_fn gc)) (combine (fn_vars (gc_fn gc)) (cap ++ vs)) st) (fun '(r, _, st) => Done (match r with Some v => v | None => ONil end, st)))
    (fun r v' => rel v' p ((fst r :: s) :: S) F (snd r)).
Proof.
  intros Mss HI EL Hp R1. destruct (Hgood _ HI) as (g0 & c & g1 & G0 & HB & EC & HO & HV & HFw). rewrite app_assoc in EC. destruct (Hplace _ _ HI EC) as (HA1 & HRet).
  apply at_app in HA1 as [HA1 HA2]. set (vars := fn_vars (gc_fn gc)) in *. set (ss := fn_body (gc_fn gc)) in *.
  assert (Hf : fr (Local vars) (combine vars (cap ++ vs)) ((OInt p :: s) :: S) F (mkLs (map Some (cap ++ vs)) false :: F)).
  { assert (ELn : length (cap ++ vs) = length vars) by (unfold zlen in EL; lia). split; [apply combine_fst; auto|]. split; [|split; [auto|split; [rewrite combine_snd; auto|eauto]]].
    destruct vars; [congruence|]. destruct (cap ++ vs); [discriminate|]. discriminate. }
  eapply sim_bind; [eapply Mss; [exact HO|exact G0|exact HB|exact HA1|exact R1|exact Hf]|]. intros [[[x|] l'] st'] v2 HP; cbn [post] in HP.
  - destruct HP as (ra & s0 & S0 & E & R2). inversion E; subst. apply sim_done. exact R2.
  - destruct HP as (F' & R2 & Hf2). eapply sim_after; [eapply sim_endvars; [exact HO|exact HA2|exact Hf|exact R2|exact Hf2]|]. intros v3 (F'' & R3 & Hf3). destruct Hf3 as (_ & _ & _ & -> & _).
    assert (HAb : about_to code v3 I_RET0). { split; [exact (r_ready _ _ _ _ _ _ _ R3)|]. rewrite (r_pc _ _ _ _ _ _ _ R3). rewrite <- HRet, address_cat. f_equal. lia. }
    eapply sim_go; [eapply go_ret0; [eassumption..|reflexivity|eassumption|reflexivity]|]. intros v4 R4. apply sim_done. exact R4.
Qed.
Lemma all_n n : calls n /\ whiles n /\ fors n.
Proof.
  induction n as [|n (HC & HW & HF)].
  - split; [|split].
    + intros f vs st v a self s S F HA HZ HR. pose proof (call_step f vs st v a self s S F HA HZ HR) as H. cbn [K at_most call]. unfold K. cbn [at_most call].
      destruct f; try (destruct H as (v' & H1 & H2 & H3); eapply sim_fail; eassumption). destruct native; [|apply (H O)]. exists O, v. split; [lia|]. split; [apply path_none|]. exact (r_ready _ _ _ _ _ _ _ HR).
    + intros sc c b nl g0 l1 g1 l2 g2 l st v a k S F0 F _ _ _ _ _ _ HR _. exists O, v. split; [lia|]. split; [apply path_none|]. exact (r_ready _ _ _ _ _ _ _ HR).
    + intros sc c u b nl g0 l2 g2 l3 g3 l4 g4 l st v a k S F0 F _ _ _ _ _ _ _ _ _ HR _. exists O, v. split; [lia|]. split; [apply path_none|]. exact (r_ready _ _ _ _ _ _ _ HR).
  - destruct (main n HC HW HF) as (Me & _ & _ & Ms & Mb & Mss). split; [|split].
    + intros f vs st v a self s S F HA HZ HR. pose proof (call_step f vs st v a self s S F HA HZ HR) as H. unfold K. cbn [at_most call]. fold (K n). unfold apply.
      destruct f; try (destruct H as (v' & H1 & H2 & H3); eapply sim_fail; eassumption). destruct native; [|apply (H (Datatypes.S n))].
      destruct (find (fun fn => ref (fn_id fn) =? ref0) (map gc_fn chunks)) as [fn|] eqn:EF; [|exact I]. apply find_in in EF as (gc & HI & EG & Er). apply Z.eqb_eq in Er.
      destruct (zlen (actrec ++ vs) =? zlen (fn_vars fn)) eqn:EL; [|exact I]. apply Z.eqb_eq in EL. rewrite <- EG in *. rewrite (Href _ HI) in Er. subst ref0. specialize (H (chunk_env _ HI)).
      destruct H as (HN & v1 & HS & R1). eapply sim_stepS; [split; [exact HN|exact HS]|].
      assert (Ha1 : 0 <= a + 1 < size) by (pose proof (at_range _ _ _ _ _ _ HA); destruct HA as (_ & _ & K1 & K2); cbn in K2; lia).
      eapply body_sim; eassumption.
    + intros sc c b nl g0 l1 g1 l2 g2 l st v a k S F0 F Oc Ob G1 G2 HB HA HR Hf. pose proof HA as HA0. unfold while_code in HA. ats. norm. labs. unfold K. cbn [at_most again]. fold (K n).
      assert (HJ : goes v (env (labname nl)) (k :: S) F st) by (eapply go_jump with (n := nl); eassumption).
      destruct HJ as (HN & v1 & HS & R1). rewrite HL0 in R1. eapply sim_stepS; [split; [exact HN|exact HS]|]. eapply (while_iter n c b (Me c) (Mb b) HW); eassumption.
    + intros sc c u b nl g0 l2 g2 l3 g3 l4 g4 l st v a k S F0 F Oc Ou Os Ob G2 G3 G4 HB HA HR Hf. pose proof HA as HA0. unfold for_code in HA. ats. norm. labs. unfold K. cbn [at_most again]. fold (K n).
      assert (HR' : rel v (a + address l2 + line_size (insl I_JUMPNZ (nl + 2)) + line_size (insl I_JUMP (nl + 3)) + address l3) (k :: S) F st) by (eapply rel_eq; [exact HR|addr]).
      assert (HJ : goes v (env (labname nl)) (k :: S) F st) by (eapply go_jump with (n := nl); eassumption).
      destruct HJ as (HN & v1 & HS & R1). rewrite HL2 in R1. eapply sim_stepS; [split; [exact HN|exact HS]|]. eapply (for_iter n c u b (Me c) (Ms u) (Mb b) HF); eassumption.
Qed.
(** A call of a function by the host: [v] is the state in which the function was entered. *)
Lemma host_call n r cap vs st v p s S F : 0 <= p < size ->
  (0 <= r < size -> rel v r ([] :: (OInt p :: s) :: S) (mkLs (map Some (cap ++ vs)) false :: F) st) ->
  sim n v (call (K (Datatypes.S n)) (OClos true r cap) vs st) (fun x v' => rel v' p ((fst x :: s) :: S) F (snd x)).
Proof.
  intros Hp HR.
  destruct (all_n n) as (HC & HW & HF). destruct (main n HC HW HF) as (_ & _ & _ & _ & _ & Mss). unfold K. cbn [at_most call]. fold (K n). unfold apply.
  destruct (find (fun fn => ref (fn_id fn) =? r) (map gc_fn chunks)) as [fn|] eqn:EF; [|exact I]. apply find_in in EF as (gc & HI & EG & Er). apply Z.eqb_eq in Er.
  destruct (zlen (cap ++ vs) =? zlen (fn_vars fn)) eqn:EL; [|exact I]. apply Z.eqb_eq in EL. rewrite <- EG in *. rewrite (Href _ HI) in Er. subst r. specialize (HR (chunk_env _ HI)).
  eapply body_sim; eassumption.
Qed.
Theorem all_statements n ss : css n ss.
Proof. destruct (all_n n) as (HC & HW & HF). apply (main n HC HW HF). Qed.
End G.
