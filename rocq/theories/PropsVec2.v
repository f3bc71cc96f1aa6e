(** The functions of vec2.bzz (C113-C114). *)
From Coq Require Import String.
From Verif Require Import Base ListLemmas Float Dict DictProofs PDict Strlib Parser Strman StrmanSpec StrmanProofs Obj ObjSpec ObjProofs Instr Vm VmSpec VmProofs Text Lex LexSpec Asm AsmSpec WireProofs CFunSpec CFunProofs Source CompileSpec GcSpec HostSpec NeighborsVmSpec NeighborsVmProofs PropsNeighborsAdd PropsHost Load LibrarySpec TableLib StdSpec StdProofs PropsLibrary Register PropsCompile PropsScript
  Front FrontProofs Meaning StringBzz BzzExec PropsStringBzz TableBzz PropsTableBzz PropsVmData PropsTableLib Vec2Bzz.
Local Open Scope Z_scope.
Local Open Scope list_scope.

(** The file is what was read. *)
Example vec2_bzz_read : holds_script (fun _ => None) vec2_bzz_file [] vec2_bzz.
Proof. apply (script_of_ok _ _ 4000). vm_compute. reflexivity. Qed.
Example vec2_bzz_same : vec2_bzz_with (fun i => i) Ss_nil = vec2_bzz. Proof. reflexivity. Qed.

Section Vec.
Context {X : Type}.
Notation sst := (sst X).
Variable strtof : list Z -> option Z.
Variable powf : libm.
Variable sid : str -> Z.
Variable ref : Z -> Z.
Variable fns : list func.
Variable cfun : Z -> list obj -> sst -> out (obj * sst).
Variable c : clib.
Notation at_most := (at_most strtof powf sid ref fns cfun).
Notation eval := (eval (X := X) strtof powf sid ref).
Notation exec_all := (exec_all (X := X) strtof powf sid ref).
Notation vec2_lib := (vec2_lib sid ref fns cfun c).
Notation returns := (returns sid ref fns cfun strtof powf).
Notation vector := (vector sid).
Notation new_vector := (new_vector sid).

(** ** Expressions that do not change the state, whatever tables are added to it *)
Definition more (st : sst) (hs : list table) : sst := set_tabs st (s_heap st ++ hs).
Lemma more_nil st : more st [] = st. Proof. unfold more, set_tabs. rewrite app_nil_r. destruct st; reflexivity. Qed.
Lemma get_more st hs o k x : get_val st o k = Done x -> get_val (more st hs) o k = Done x.
Proof.
  destruct o; cbn [get_val]; try discriminate. destruct (is_key k); [|discriminate]. cbn [more set_tabs s_heap]. unfold table_at.
  match goal with |- context [0 <=? ?a] => destruct (0 <=? a); [|discriminate]; destruct (nth_error (s_heap st) (Z.to_nat a)) as [t|] eqn:E; [|discriminate]; rewrite nth_error_app1 by (apply nth_error_Some; congruence); rewrite E end. auto.
Qed.
Lemma member_more st hs x n o : member sid st x n o -> member sid (more st hs) x n o.
Proof. intros (a & A & B). exists a. split; [exact A|]. apply get_more. exact B. Qed.
Definition pure (n : nat) (e : expr) (l : locals) (st : sst) (x : obj) : Prop := forall hs, eval (at_most n) e l (more st hs) = Done (x, more st hs).
Lemma pure_var n x l st o : var_get l x = Some o -> pure n (E_var x) l st o.
Proof. intros H hs. cbn [Source.eval]. unfold var_val. rewrite H. reflexivity. Qed.
Lemma pure_get n e k l st o x : pure n e l st o -> get_val st o (OStr (sid k) k) = Done x -> pure n (E_get e (E_str k)) l st x.
Proof. intros H G hs. cbn [Source.eval]. rewrite H. cbn [obind]. rewrite (get_more _ _ _ _ _ G). reflexivity. Qed.
Lemma pure_bin n b e1 e2 l st x y r : pure n e1 l st x -> pure n e2 l st y -> bin_val powf b x y = Done r -> pure n (E_bin b e1 e2) l st r.
Proof. intros H1 H2 H hs. cbn [Source.eval]. rewrite H1. cbn [obind]. rewrite H2. cbn [obind]. rewrite H. reflexivity. Qed.
Lemma pure_real n k e l st x f : vec2_lib st -> In k ["sqrt"; "sin"; "cos"]%string -> var_get l (bs "math") = None -> pure n e l st x -> float_of x = Some f ->
  pure n (E_call (E_get (E_var (bs "math")) (E_str (bs k))) (Es_cons e Es_nil)) l st (OFloat (c_real c k f)).
Proof.
  intros HL Hk HV HE HF hs. destruct (vl_real _ _ _ _ _ _ HL k Hk) as (o & M & C).
  change (obind (eval (at_most n) (E_get (E_var (bs "math")) (E_str (bs k))) l (more st hs)) (fun '(f0, st0) => obind (evals strtof powf sid ref (at_most n) (Es_cons e Es_nil) l st0) (fun '(vs, st1) => call (at_most n) f0 vs st1)) = Done (OFloat (c_real c k f), more st hs)).
  rewrite (eval_member strtof powf sid ref (at_most n) l _ "math" k o HV (member_more _ hs _ _ _ M)). cbn [obind].
  change (obind (obind (eval (at_most n) e l (more st hs)) (fun '(x0, st1) => Done ([x0], st1))) (fun '(vs, st0) => call (at_most n) o vs st0) = Done (OFloat (c_real c k f), more st hs)).
  rewrite HE. cbn [obind]. rewrite (call_c_value strtof powf sid ref fns cfun n o _ _ _ C). unfold real, number, one_arg. destruct x; cbn [float_of] in HF; inversion HF; subst; reflexivity.
Qed.

(** ** New vectors *)
Definition x_key := OStr (sid (bs "x")) (bs "x").
Definition y_key := OStr (sid (bs "y")) (bs "y").
Lemma put_new st t k o : storable o -> live_key (s_str st) k -> forall t', tab_set t k o = Ok t' ->
  put_val (more st [t]) (OTab (zlen (s_heap st))) k o = Done (more st [t']).
Proof.
  intros HO HK t' HT. unfold put_val. replace (is_key k) with true by (destruct k; cbn in HK |- *; tauto). unfold table_at. replace (0 <=? zlen (s_heap st)) with true by (unfold zlen; lia).
  unfold more at 1. cbn [set_tabs s_heap]. rewrite to_zlen, nth_mid. cbn [obind]. destruct o; cbn in HO; try tauto; cbn [bind_self]; rewrite HT; cbn [of_res obind]; unfold more; cbn [set_tabs s_heap]; rewrite upd_snoc; reflexivity.
Qed.
Lemma make_ok st x y : vec2_lib st -> storable x -> storable y ->
  exists v st', new_vector st x y v st' /\ forall n e1 e2 l, pure n e1 l st x -> pure n e2 l st y ->
    eval (at_most n) (E_table (F_cons (E_str (bs "x")) e1 (F_cons (E_str (bs "y")) e2 F_nil))) l st = Done (v, st').
Proof.
  intros HL S1 S2. pose proof (vl_strings _ _ _ _ _ _ HL) as HG. pose proof (vl_x _ _ _ _ _ _ HL : live_key (s_str st) x_key) as KX. pose proof (vl_y _ _ _ _ _ _ HL : live_key (s_str st) y_key) as KY.
  assert (HM : made (s_str st) tab_new) by (exists []; split; [constructor|reflexivity]).
  assert (D1 : same_key x_key y_key = false) by reflexivity. assert (D2 : same_key y_key x_key = false) by reflexivity.
  destruct (made_set _ _ _ x HG HM KX) as (t1 & E1 & M1 & G1 & O1). destruct (made_set _ _ _ y HG M1 KY) as (t2 & E2 & M2 & G2 & O2).
  assert (Z2 : zlen (pentries t2) = 2).
  { pose proof (built_twf _ _ _ (made_built _ _ HG HM)) as W0. pose proof (built_twf _ _ _ (made_built _ _ HG M1)) as W1.
    rewrite (tab_set_size false (idof (s_str st)) t1 y_key y t2 W1 (live_class _ _ HG KY)); [|rewrite O1; [exact (new_get _ _ _ (live_class _ _ HG KY))|exact KY|exact D1]|exact E2].
    rewrite (tab_set_size false (idof (s_str st)) tab_new x_key x t1 W0 (live_class _ _ HG KX)); [reflexivity|exact (new_get _ _ _ (live_class _ _ HG KX))|exact E1]. }
  exists (OTab (zlen (s_heap st))), (more st [t2]). split; cycle 1.
  - intros n e1 e2 l H1 H2. cbn [Source.eval fill obind]. change (set_tabs st (s_heap st ++ [tab_new])) with (more st [tab_new]). rewrite H1. cbn [obind].
    fold x_key. rewrite (put_new st tab_new x_key x S1 KX t1 E1). cbn [obind]. rewrite H2. cbn [obind]. fold y_key. rewrite (put_new st t1 y_key y S2 KY t2 E2). reflexivity.
  - exists t2. split; [reflexivity|]. split; [reflexivity|]. split; [|exact Z2].
    assert (HT : forall k o, live_key (s_str st) k -> tab_get t2 k = Ok (Some o) -> get_val (more st [t2]) (OTab (zlen (s_heap st))) k = Done o).
    { intros k o HK Q. cbn [get_val]. replace (is_key k) with true by (destruct k; cbn in HK |- *; tauto). unfold table_at, more. cbn [set_tabs s_heap]. replace (0 <=? zlen (s_heap st)) with true by (unfold zlen; lia). rewrite to_zlen, nth_mid. cbn [obind]. rewrite Q. reflexivity. }
    split; apply HT; auto. rewrite O2; auto.
Qed.
Lemma arith_storable b x y r : In b [B_add; B_sub; B_mul; B_div] -> bin_val powf b x y = Done r -> storable r.
Proof.
  intros Hb H. destruct Hb as [<-|[<-|[<-|[<-|[]]]]]; destruct x, y; try discriminate H;
    cbn [bin_val numbers is_num andb arith of_res int_add int_sub int_mul int_div] in H; unfold int_add, int_sub, int_mul, int_div, i32 in H;
    repeat match type of H with context [if ?z then _ else _] => destruct z end; try discriminate H; cbn [of_res] in H; inversion H; exact I.
Qed.

(** ** The functions *)
Lemma ret_call n o f vs st e v st' : fun_value ref fns o f -> zlen vs = zlen (fst f) -> snd f = Ss_cons (S_returnval e) Ss_nil ->
  (forall self, eval (at_most n) e (combine (bs "self" :: fst f) (self :: vs)) st = Done (v, st')) -> call (at_most (S n)) o vs st = Done (v, st').
Proof.
  intros HF HV HS HE. destruct (call_fun strtof powf sid ref fns cfun n o f vs st HF HV) as (self & ->). rewrite HS.
  rewrite (seq_ret strtof powf sid ref (at_most n) (S_returnval e) Ss_nil _ st v (combine (bs "self" :: fst f) (self :: vs)) st'); [reflexivity|].
  change (obind (eval (at_most n) e (combine (bs "self" :: fst f) (self :: vs)) st) (fun '(v, st) => Done (Some v, combine (bs "self" :: fst f) (self :: vs), st)) = Done (Some v, combine (bs "self" :: fst f) (self :: vs), st')). rewrite HE. reflexivity.
Qed.
Lemma in_vec2_one (st : sst) n o o' : in_vec2 sid st n o -> in_vec2 sid st n o' -> o = o'.
Proof. intros (w & A & B) (w' & A' & B'). rewrite (member_one _ _ _ _ _ _ A' A) in B'. unfold named in *. congruence. Qed.
Lemma its_fun st n f : vec2_lib st -> in_vec2 sid st n f -> In n vec2_names -> fun_value ref fns f (vec2_fun n).
Proof. intros HL HM Hn. destruct (vl_fun _ _ _ _ _ _ HL n Hn) as (o & M & F). rewrite (in_vec2_one _ _ _ _ HM M). exact F. Qed.
(** A function whose only statement returns a new vector. *)
Lemma vec_call nm f vs st e1 e2 x y : vec2_lib st -> in_vec2 sid st nm f -> In nm vec2_names -> zlen vs = zlen (fst (vec2_fun nm)) ->
  snd (vec2_fun nm) = Ss_cons (S_returnval (E_table (F_cons (E_str (bs "x")) e1 (F_cons (E_str (bs "y")) e2 F_nil)))) Ss_nil ->
  (forall self, pure 0 e1 (combine (bs "self" :: fst (vec2_fun nm)) (self :: vs)) st x) -> (forall self, pure 0 e2 (combine (bs "self" :: fst (vec2_fun nm)) (self :: vs)) st y) -> storable x -> storable y ->
  exists v st', returns f vs st v st' /\ new_vector st x y v st'.
Proof.
  intros HL HM Hn Hz HS H1 H2 S1 S2. pose proof (its_fun st nm f HL HM Hn) as HF.
  destruct (make_ok st x y HL S1 S2) as (v & st' & N & E). exists v, st'. split; [|exact N]. exists 1%nat. intros m Hm. eapply call_mono; [|exact Hm].
  apply (ret_call 0 f _ vs st _ v st' HF Hz HS). intro self. apply E; auto.
Qed.
Lemma value_call n nm f vs st e r : vec2_lib st -> in_vec2 sid st nm f -> In nm vec2_names -> zlen vs = zlen (fst (vec2_fun nm)) ->
  snd (vec2_fun nm) = Ss_cons (S_returnval e) Ss_nil -> (forall self, pure n e (combine (bs "self" :: fst (vec2_fun nm)) (self :: vs)) st r) -> call (at_most (S n)) f vs st = Done (r, st).
Proof.
  intros HL HM Hn Hz HS HE. apply (ret_call n f _ vs st e r st (its_fun st nm f HL HM Hn) Hz HS). intro self. specialize (HE self []). rewrite more_nil in HE. exact HE.
Qed.
End Vec.

Ltac vec_fun nm := let b := eval vm_compute in (snd (vec2_fun nm)) in
  match b with Ss_cons (S_returnval (E_table (F_cons _ ?e1 (F_cons _ ?e2 F_nil)))) Ss_nil => eapply (vec_call _ _ _ _ _ _ _ nm _ _ _ e1 e2); [eassumption|eassumption|cbn; tauto|reflexivity|reflexivity| | | |] end.
Ltac val_fun nm := let b := eval vm_compute in (snd (vec2_fun nm)) in
  match b with Ss_cons (S_returnval ?e) Ss_nil => eapply (value_call _ _ _ _ _ _ _ _ nm _ _ _ e); [eassumption|eassumption|cbn; tauto|reflexivity|reflexivity|] end.
Ltac inlist := first [left; reflexivity|right; inlist].
Ltac param := apply pure_var; reflexivity.
Ltac coord H := eapply pure_get; [param|exact H].

(** ** C114: what the functions do *)
Section Claims.
Context {X : Type}.
Variables (strtof : list Z -> option Z) (powf : libm) (sid : str -> Z) (ref : Z -> Z) (fns : list func) (cfun : Z -> list obj -> sst X -> out (obj * sst X)) (c : clib).
Notation vec2_lib := (vec2_lib sid ref fns cfun c).
Notation returns := (returns sid ref fns cfun strtof powf).
Notation vector := (vector sid).
Notation new_vector := (new_vector sid).
Notation in_vec2 := (in_vec2 sid).
(** The operators of the language. *)
Definition plus (x y r : obj) : Prop := bin_val powf B_add x y = Done r.
Definition minus (x y r : obj) : Prop := bin_val powf B_sub x y = Done r.
Definition times (x y r : obj) : Prop := bin_val powf B_mul x y = Done r.
Definition over (x y r : obj) : Prop := bin_val powf B_div x y = Done r.

Theorem C114_new : forall f x y (st : sst X), vec2_lib st -> in_vec2 st "new" f -> storable x -> storable y ->
  exists v st', returns f [x; y] st v st' /\ new_vector st x y v st'.
Proof. intros f x y st HL HM Sx Sy. vec_fun "new"%string; try assumption; intro self; param. Qed.
Theorem C114_newp : forall f l a fa x y (st : sst X), vec2_lib st -> in_vec2 st "newp" f -> float_of a = Some fa ->
  times l (OFloat (c_real c "cos" fa)) x -> times l (OFloat (c_real c "sin" fa)) y ->
  exists v st', returns f [l; a] st v st' /\ new_vector st x y v st'.
Proof.
  intros f l a fa x y st HL HM Ha Hx Hy. vec_fun "newp"%string.
  - intro self. eapply pure_bin; [param| |exact Hx]. apply (pure_real _ _ _ _ _ _ _ 0 "cos"%string _ _ st a); [exact HL|cbn; tauto|reflexivity|param|exact Ha].
  - intro self. eapply pure_bin; [param| |exact Hy]. apply (pure_real _ _ _ _ _ _ _ 0 "sin"%string _ _ st a); [exact HL|cbn; tauto|reflexivity|param|exact Ha].
  - eapply arith_storable; [|exact Hx]; cbn; tauto.
  - eapply arith_storable; [|exact Hy]; cbn; tauto.
Qed.
Theorem C114_add : forall f u v x1 y1 x2 y2 x y (st : sst X), vec2_lib st -> in_vec2 st "add" f -> vector st u x1 y1 -> vector st v x2 y2 ->
  plus x1 x2 x -> plus y1 y2 y -> exists r st', returns f [u; v] st r st' /\ new_vector st x y r st'.
Proof.
  intros f u v x1 y1 x2 y2 x y st HL HM [U1 U2] [V1 V2] Hx Hy. vec_fun "add"%string.
  - intro self. eapply pure_bin; [coord U1|coord V1|exact Hx].
  - intro self. eapply pure_bin; [coord U2|coord V2|exact Hy].
  - eapply arith_storable; [|exact Hx]; cbn; tauto.
  - eapply arith_storable; [|exact Hy]; cbn; tauto.
Qed.
Theorem C114_sub : forall f u v x1 y1 x2 y2 x y (st : sst X), vec2_lib st -> in_vec2 st "sub" f -> vector st u x1 y1 -> vector st v x2 y2 ->
  minus x1 x2 x -> minus y1 y2 y -> exists r st', returns f [u; v] st r st' /\ new_vector st x y r st'.
Proof.
  intros f u v x1 y1 x2 y2 x y st HL HM [U1 U2] [V1 V2] Hx Hy. vec_fun "sub"%string.
  - intro self. eapply pure_bin; [coord U1|coord V1|exact Hx].
  - intro self. eapply pure_bin; [coord U2|coord V2|exact Hy].
  - eapply arith_storable; [|exact Hx]; cbn; tauto.
  - eapply arith_storable; [|exact Hy]; cbn; tauto.
Qed.
Theorem C114_scale : forall f v s x1 y1 x y (st : sst X), vec2_lib st -> in_vec2 st "scale" f -> vector st v x1 y1 ->
  times x1 s x -> times y1 s y -> exists r st', returns f [v; s] st r st' /\ new_vector st x y r st'.
Proof.
  intros f v s x1 y1 x y st HL HM [V1 V2] Hx Hy. vec_fun "scale"%string.
  - intro self. eapply pure_bin; [coord V1|param|exact Hx].
  - intro self. eapply pure_bin; [coord V2|param|exact Hy].
  - eapply arith_storable; [|exact Hx]; cbn; tauto.
  - eapply arith_storable; [|exact Hy]; cbn; tauto.
Qed.
Theorem C114_dot : forall f u v x1 y1 x2 y2 xx yy r (st : sst X), vec2_lib st -> in_vec2 st "dot" f -> vector st u x1 y1 -> vector st v x2 y2 ->
  times x1 x2 xx -> times y1 y2 yy -> plus xx yy r -> returns f [u; v] st r st.
Proof.
  intros f u v x1 y1 x2 y2 xx yy r st HL HM [U1 U2] [V1 V2] Hx Hy Hr. exists 1%nat. intros m Hm. eapply call_mono; [|exact Hm]. val_fun "dot"%string.
  intro self. eapply pure_bin; [eapply pure_bin; [coord U1|coord V1|exact Hx]|eapply pure_bin; [coord U2|coord V2|exact Hy]|exact Hr].
Qed.
Lemma length_call f v x y xx yy s fs (st : sst X) n : vec2_lib st -> in_vec2 st "length" f -> vector st v x y ->
  times x x xx -> times y y yy -> plus xx yy s -> float_of s = Some fs -> call (at_most strtof powf sid ref fns cfun (S n)) f [v] st = Done (OFloat (c_real c "sqrt" fs), st).
Proof.
  intros HL HM [V1 V2] Hx Hy Hs Hf. val_fun "length"%string. intro self. apply (pure_real _ _ _ _ _ _ _ n "sqrt"%string _ _ st s); [exact HL|cbn; tauto|reflexivity| |exact Hf].
  eapply pure_bin; [eapply pure_bin; [coord V1|coord V1|exact Hx]|eapply pure_bin; [coord V2|coord V2|exact Hy]|exact Hs].
Qed.
Theorem C114_length : forall f v x y xx yy s fs (st : sst X), vec2_lib st -> in_vec2 st "length" f -> vector st v x y ->
  times x x xx -> times y y yy -> plus xx yy s -> float_of s = Some fs -> returns f [v] st (OFloat (c_real c "sqrt" fs)) st.
Proof. intros. exists 1%nat. intros m Hm. eapply call_mono; [|exact Hm]. eapply length_call; eauto. Qed.
Theorem C114_angle : forall f v x y fx fy (st : sst X), vec2_lib st -> in_vec2 st "angle" f -> vector st v x y -> float_of x = Some fx -> float_of y = Some fy ->
  returns f [v] st (OFloat (c_atan2 c fy fx)) st.
Proof.
  intros f v x y fx fy st HL HM [V1 V2] Hx Hy. exists 1%nat. intros m Hm. eapply call_mono; [|exact Hm]. val_fun "angle"%string. intros self hs.
  destruct (vl_atan _ _ _ _ _ _ HL) as (o & M & C). set (l := combine _ _).
  assert (P1 : forall k z, get_val st v (OStr (sid (bs k)) (bs k)) = Done z -> pure strtof powf sid ref fns cfun 0 (E_get (E_var (bs "v")) (E_str (bs k))) l st z) by (intros k z Hz; eapply pure_get; [param|exact Hz]).
  change (obind (eval strtof powf sid ref (at_most strtof powf sid ref fns cfun 0) (E_get (E_var (bs "math")) (E_str (bs "atan"))) l (more st hs)) (fun '(f0, st0) =>
    obind (obind (eval strtof powf sid ref (at_most strtof powf sid ref fns cfun 0) (E_get (E_var (bs "v")) (E_str (bs "y"))) l st0) (fun '(a, st1) =>
      obind (obind (eval strtof powf sid ref (at_most strtof powf sid ref fns cfun 0) (E_get (E_var (bs "v")) (E_str (bs "x"))) l st1) (fun '(b, st2) => Done ([b], st2))) (fun '(xs, st2) => Done (a :: xs, st2))))
    (fun '(vs, st1) => call (at_most strtof powf sid ref fns cfun 0) f0 vs st1)) = Done (OFloat (c_atan2 c fy fx), more st hs)).
  rewrite (eval_member strtof powf sid ref _ l _ "math" "atan" o eq_refl (member_more sid _ hs _ _ _ M)). cbn [obind].
  rewrite (P1 _ _ V2 hs). cbn [obind]. rewrite (P1 _ _ V1 hs). cbn [obind]. rewrite (call_c_value strtof powf sid ref fns cfun _ o _ _ _ C). unfold atan, two_args. rewrite Hy, Hx. reflexivity.
Qed.
Theorem C114_norm : forall f v x y xx yy s fs rx ry (st : sst X), vec2_lib st -> in_vec2 st "norm" f -> vector st v x y ->
  times x x xx -> times y y yy -> plus xx yy s -> float_of s = Some fs ->
  over x (OFloat (c_real c "sqrt" fs)) rx -> over y (OFloat (c_real c "sqrt" fs)) ry -> exists r st', returns f [v] st r st' /\ new_vector st rx ry r st'.
Proof.
  intros f v x y xx yy s fs rx ry st HL HM HV Hxx Hyy Hs Hf Hx Hy. destruct (vl_fun _ _ _ _ _ _ HL "length"%string ltac:(cbn; tauto)) as (fl & ML & _).
  pose proof (its_fun sid ref fns cfun c st "norm" f HL HM ltac:(cbn; tauto)) as HF. set (len := OFloat (c_real c "sqrt" fs)) in *.
  assert (Sx : storable rx) by (eapply (arith_storable powf B_div); [cbn; tauto|exact Hx]). assert (Sy : storable ry) by (eapply (arith_storable powf B_div); [cbn; tauto|exact Hy]).
  destruct (make_ok strtof powf sid ref fns cfun c st rx ry HL Sx Sy) as (r & st' & N & E). exists r, st'. split; [|exact N]. exists 2%nat. intros m Hm. eapply call_mono; [|exact Hm].
  destruct (call_fun strtof powf sid ref fns cfun 1 f _ [v] st HF eq_refl) as (self & ->).
  set (k := at_most strtof powf sid ref fns cfun 1). set (l0 := combine (bs "self" :: fst (vec2_fun "norm")) [self; v]).
  assert (H1 : exec strtof powf sid ref k (S_varinit (bs "l") (E_call (E_get (E_get (E_var (bs "math")) (E_str (bs "vec2"))) (E_str (bs "length"))) (Es_cons (E_var (bs "v")) Es_nil))) l0 st = Done (None, l0 ++ [(bs "l", len)], st)).
  { destruct ML as (w & M1 & M2). set (l1 := l0 ++ [(bs "l", ONil)]).
    change (obind (obind (obind (eval strtof powf sid ref k (E_get (E_var (bs "math")) (E_str (bs "vec2"))) l1 st) (fun '(t, st) => obind (get_val st t (OStr (sid (bs "length")) (bs "length"))) (fun r => Done (r, st))))
      (fun '(f0, st0) => call k f0 [v] st0)) (fun '(z, st) => Done (@None obj, var_set l1 (bs "l") z, st)) = Done (@None obj, l0 ++ [(bs "l", len)], st)).
    rewrite (eval_member strtof powf sid ref _ l1 _ "math" "vec2" w eq_refl M1). cbn [obind]. rewrite M2. cbn [obind].
    unfold k. rewrite (length_call fl v x y xx yy s fs st 0 HL (ex_intro _ w (conj M1 M2)) HV Hxx Hyy Hs Hf). reflexivity. }
  set (l2 := l0 ++ [(bs "l", len)]) in *. destruct HV as [V1 V2].
  set (e := E_table (F_cons (E_str (bs "x")) (E_bin B_div (E_get (E_var (bs "v")) (E_str (bs "x"))) (E_var (bs "l"))) (F_cons (E_str (bs "y")) (E_bin B_div (E_get (E_var (bs "v")) (E_str (bs "y"))) (E_var (bs "l"))) F_nil))).
  assert (H2 : eval strtof powf sid ref k e l2 st = Done (r, st')).
  { apply E; eapply pure_bin; [coord V1|param|exact Hx|coord V2|param|exact Hy]. }
  change (snd (vec2_fun "norm")) with (Ss_cons (S_varinit (bs "l") (E_call (E_get (E_get (E_var (bs "math")) (E_str (bs "vec2"))) (E_str (bs "length"))) (Es_cons (E_var (bs "v")) Es_nil))) (Ss_cons (S_returnval e) Ss_nil)).
  rewrite (seq_step strtof powf sid ref k _ _ l0 st l2 st H1). rewrite (seq_ret strtof powf sid ref k (S_returnval e) Ss_nil l2 st r l2 st'); [reflexivity|].
  change (obind (eval strtof powf sid ref k e l2 st) (fun '(v, st) => Done (Some v, l2, st)) = Done (Some r, l2, st')). rewrite H2. reflexivity.
Qed.
Theorem C114_rotate : forall f v a fa x y xc ys xs yc rx ry (st : sst X), vec2_lib st -> in_vec2 st "rotate" f -> vector st v x y -> float_of a = Some fa ->
  times x (OFloat (c_real c "cos" fa)) xc -> times y (OFloat (c_real c "sin" fa)) ys -> minus xc ys rx ->
  times x (OFloat (c_real c "sin" fa)) xs -> times y (OFloat (c_real c "cos" fa)) yc -> plus xs yc ry -> exists r st', returns f [v; a] st r st' /\ new_vector st rx ry r st'.
Proof.
  intros f v a fa x y xc ys xs yc rx ry st HL HM [V1 V2] Ha H1 H2 Hx H3 H4 Hy. vec_fun "rotate"%string.
  - intro self. eapply pure_bin; [eapply pure_bin; [coord V1| |exact H1]|eapply pure_bin; [coord V2| |exact H2]|exact Hx].
    + apply (pure_real _ _ _ _ _ _ _ 0 "cos"%string _ _ st a); [exact HL|cbn; tauto|reflexivity|param|exact Ha].
    + apply (pure_real _ _ _ _ _ _ _ 0 "sin"%string _ _ st a); [exact HL|cbn; tauto|reflexivity|param|exact Ha].
  - intro self. eapply pure_bin; [eapply pure_bin; [coord V1| |exact H3]|eapply pure_bin; [coord V2| |exact H4]|exact Hy].
    + apply (pure_real _ _ _ _ _ _ _ 0 "sin"%string _ _ st a); [exact HL|cbn; tauto|reflexivity|param|exact Ha].
    + apply (pure_real _ _ _ _ _ _ _ 0 "cos"%string _ _ st a); [exact HL|cbn; tauto|reflexivity|param|exact Ha].
  - eapply arith_storable; [|exact Hx]; cbn; tauto.
  - eapply arith_storable; [|exact Hy]; cbn; tauto.
Qed.
(** With integers, the results are the exact ones, as long as int can represent them. *)
Theorem C114_integers : forall f g h u v x1 y1 x2 y2 (st : sst X), vec2_lib st -> in_vec2 st "add" f -> in_vec2 st "sub" g -> in_vec2 st "dot" h ->
  vector st u (OInt x1) (OInt y1) -> vector st v (OInt x2) (OInt y2) ->
  (int32_range (x1 + x2) -> int32_range (y1 + y2) -> exists r st', returns f [u; v] st r st' /\ new_vector st (OInt (x1 + x2)) (OInt (y1 + y2)) r st') /\
  (int32_range (x1 - x2) -> int32_range (y1 - y2) -> exists r st', returns g [u; v] st r st' /\ new_vector st (OInt (x1 - x2)) (OInt (y1 - y2)) r st') /\
  (int32_range (x1 * x2) -> int32_range (y1 * y2) -> int32_range (x1 * x2 + y1 * y2) -> returns h [u; v] st (OInt (x1 * x2 + y1 * y2)) st).
Proof.
  intros f g h u v x1 y1 x2 y2 st HL Hf Hg Hh HU HV.
  assert (HMul : forall a b, int32_range (a * b) -> times (OInt a) (OInt b) (OInt (a * b))).
  { intros a b Hr. unfold times, bin_val, numbers. cbn [is_num andb arith]. unfold int_mul, i32. replace (int32_rangeb (a * b)) with true by (unfold int32_range, int32_rangeb in *; lia). reflexivity. }
  split; [|split].
  - intros Rx Ry. eapply C114_add; eauto; apply add_ints; assumption.
  - intros Rx Ry. eapply C114_sub; eauto; apply sub_ints; assumption.
  - intros Rx Ry Rs. eapply C114_dot; eauto. apply add_ints; assumption.
Qed.
End Claims.
Print Assumptions C114_new. Print Assumptions C114_newp. Print Assumptions C114_length. Print Assumptions C114_angle. Print Assumptions C114_norm.
Print Assumptions C114_add. Print Assumptions C114_sub. Print Assumptions C114_scale. Print Assumptions C114_dot. Print Assumptions C114_rotate. Print Assumptions C114_integers.

(** ** Scripts that include vec2.bzz *)
Section Puts.
Context {X : Type}.
Notation sst := (sst X).
Variable strtof : list Z -> option Z.
Variable powf : libm.
Variable sid : str -> Z.
Variable ref : Z -> Z.
Variable te : expr.
Variable a : Z.
Fixpoint puts_at (l : list (string * Z * (list str * stats))) (r : stats) : stats :=
  match l with [] => r | (n, i, f) :: l => Ss_cons (S_put te (E_str (bs n)) (E_fun i (fst f) (snd f))) (puts_at l r) end.
Lemma puts_at_ok : forall l (st : sst) t, (forall k u, eval strtof powf sid ref k te [] (with_table st a u) = Done (OTab a, with_table st a u)) ->
  0 <= a -> nth_error (s_heap st) (Z.to_nat a) = Some t -> good_strings (s_str st) -> made (s_str st) t ->
  Forall (fun e => live_key (s_str st) (OStr (sid (bs (fst (fst e)))) (bs (fst (fst e))))) l -> NoDup (map (fun e => bs (fst (fst e))) l) ->
  exists t', (forall k r, exec_all strtof powf sid ref k (puts_at l r) [] st = exec_all strtof powf sid ref k r [] (with_table st a t')) /\
    (forall n i f, In (n, i, f) l -> tab_get t' (OStr (sid (bs n)) (bs n)) = Ok (Some (OClos true (ref i) [OTab a]))) /\
    (forall y, live_key (s_str st) (OStr (sid y) y) -> ~ In y (map (fun e => bs (fst (fst e))) l) -> tab_get t' (OStr (sid y) y) = tab_get t (OStr (sid y) y)).
Proof.
  induction l as [|[[n i] f] l IH]; intros st t HG Ha HT HS HM HL HN.
  - exists t. split; [|split; [intros ? ? ? []|auto]]. intros k r. rewrite with_table_id by exact HT. reflexivity.
  - inversion HL as [|? ? L1 L2]; subst. inversion HN as [|? ? N1 N2]; subst. cbn [fst] in *.
    destruct (made_set _ t _ (OClos true (ref i) [OTab a]) HS HM L1) as (t1 & E1 & M1 & G1 & O1).
    assert (HT1 : nth_error (s_heap (with_table st a t1)) (Z.to_nat a) = Some t1) by (eapply with_table_at; exact HT).
    destruct (IH (with_table st a t1) t1) as (t' & E & I1 & I2); auto. { intros k u. rewrite with_table_twice. apply HG. }
    exists t'. split; [|split].
    + intros k r. cbn [puts_at]. rewrite (seq_step strtof powf sid ref k _ _ [] st [] (with_table st a t1)).
      * rewrite E, with_table_twice. reflexivity.
      * pose proof (HG k t) as Q. rewrite with_table_id in Q by exact HT. cbn [Source.exec]. rewrite Q. cbn [Source.eval obind fst snd]. unfold fun_val. cbn [map put_val is_key bind_self tl]. unfold table_at. replace (0 <=? a) with true by lia. rewrite HT. cbn [obind]. rewrite E1. reflexivity.
    + intros n' i' f' [H|H]; [|eauto]. inversion H; subst n' i' f'. rewrite I2; [exact G1|exact L1|exact N1].
    + intros y Hy Hn. rewrite I2; [|exact Hy|intro Q; apply Hn; right; exact Q]. apply O1; [exact Hy|]. cbn. apply not_true_iff_false. intro Q. apply Hn. left. cbn [fst]. destruct (list_eq_dec Z.eq_dec (bs n) y); [assumption|discriminate].
Qed.
End Puts.

(** The strings of vec2.bzz that are keys. *)
Definition vec2_keys : list string := vec2_names ++ ["vec2"; "x"; "y"; "sqrt"; "sin"; "cos"; "atan"]%string.
Lemma loaded_vec2 X c fid robot (st0 st : sst X) strtof powf sid ref fns g : library fid robot st0 st -> strings_ok (s_str st) ->
  (forall n, In n vec2_keys -> 0 <= sid (bs n) < 65536 /\ sm_get (s_str st) (sid (bs n)) = Some (bs n)) ->
  (forall n, In n ["buzzmath_sqrt"; "buzzmath_sin"; "buzzmath_cos"; "buzzmath_atan"]%string -> 0 <= fid n < 2 ^ 31 /\ forall m, In m (map fst (@std_meanings c X)) -> fid m = fid n -> m = n) ->
  (forall f, In f (functions (vec2_bzz_with g Ss_nil)) -> In f fns) -> (forall f h, In f fns -> In h fns -> ref (fn_id f) = ref (fn_id h) -> f = h) ->
  exists st', (forall k r, exec_all strtof powf sid ref k (vec2_bzz_with g r) [] st = exec_all strtof powf sid ref k r [] st') /\
    vec2_lib sid ref fns (std_cfun c fid) c st' /\ s_glob st' = s_glob st /\ s_str st' = s_str st /\ s_ext st' = s_ext st /\
    exists m t w, s_glob st (bs "math") = OTab m /\ s_heap st' = upd (s_heap st) (Z.to_nat m) t ++ [w].
Proof.
  intros HL HS HK HFid HF HU. destruct (lib_tables _ _ _ _ HL) as (ts & Eh & Ez & Hts). set (b := zlen (s_heap st0)) in *.
  destruct (nth_error ts 3) as [t|] eqn:ET; [|apply nth_error_None in ET; unfold zlen in Ez; cbn in Ez; lia].
  destruct (Hts 3%nat _ t eq_refl ET) as (HM & _ & HB). replace (b + Z.of_nat 3) with (b + 3) in HM by lia. set (m := b + 3) in *. set (a := zlen (s_heap st)).
  pose proof (lib_globals _ _ _ _ HL "math"%string (V_table 3) ltac:(cbn; tauto)) as HG. cbn [denotes] in HG. fold b in HG. fold m in HG.
  assert (Hb : 0 <= b) by (unfold b, zlen; lia). assert (Hm : 0 <= m) by (unfold m; lia). assert (Ha : 0 <= a) by (unfold a, zlen; lia).
  assert (HGS : good_strings (s_str st)) by (split; [destruct HS as (o1 & o2 & P1 & P2); exists o1, o2; split; assumption|exact (lib_live _ _ _ _ HL)]).
  assert (HT : nth_error (s_heap st) (Z.to_nat m) = Some t).
  { rewrite Eh, nth_error_app2 by (unfold m, b, zlen; lia). replace (Z.to_nat m - length (s_heap st0))%nat with 3%nat by (unfold m, b, zlen; lia). exact ET. }
  assert (Lm : (Z.to_nat m < length (s_heap st))%nat) by (apply nth_error_Some; congruence).
  assert (HLV : forall n, In n vec2_keys -> live_key (s_str st) (OStr (sid (bs n)) (bs n))).
  { intros n Hn. destruct (HK n Hn). cbn. split; [lia|]. split; [assumption|]. cbn in Hn. repeat (destruct Hn as [<-|Hn]; [reflexivity|]). destruct Hn. }
  set (key n := OStr (sid (bs n)) (bs n)) in *.
  destruct (made_set _ t (key "vec2"%string) (OTab a) HGS HB (HLV "vec2"%string ltac:(cbn; tauto))) as (t1 & E1 & M1 & G1 & O1).
  set (st1 := set_tabs st (upd (s_heap st) (Z.to_nat m) t1 ++ [tab_new])).
  assert (Ea : Z.to_nat a = length (upd (s_heap st) (Z.to_nat m) t1)) by (rewrite upd_length; unfold a; apply to_zlen).
  assert (HTa : nth_error (s_heap st1) (Z.to_nat a) = Some tab_new) by (rewrite Ea; cbn [st1 set_tabs s_heap]; apply nth_mid).
  assert (HTm : forall u, nth_error (s_heap (with_table st1 a u)) (Z.to_nat m) = Some t1).
  { intro u. unfold with_table. cbn [set_tabs s_heap st1]. rewrite Ea, upd_snoc. rewrite nth_error_app1 by (rewrite upd_length; exact Lm). rewrite upd_nth_error by exact Lm. rewrite Nat.eqb_refl. reflexivity. }
  assert (HMath : forall u n o, tab_get t1 (key n) = Ok (Some o) -> member sid (with_table st1 a u) "math" n o).
  { intros u n o Q. exists m. split; [exact HG|]. cbn [get_val is_key]. unfold table_at. replace (0 <=? m) with true by lia. rewrite HTm. cbn [obind]. fold (key n). rewrite Q. reflexivity. }
  set (te := E_get (E_var (bs "math")) (E_str (bs "vec2"))).
  assert (HTE : forall k u, eval strtof powf sid ref k te [] (with_table st1 a u) = Done (OTab a, with_table st1 a u)).
  { intros k u. apply eval_member; [reflexivity|]. apply HMath. exact G1. }
  destruct (puts_at_ok strtof powf sid ref te a (vec2_members g) st1 tab_new HTE Ha HTa HGS) as (t' & E & I1 & _).
  { exists []. split; [constructor|reflexivity]. }
  { unfold vec2_members. repeat (constructor; [apply HLV; cbn; tauto|]). constructor. }
  { nodup. }
  set (st2 := with_table st1 a t') in *. exists st2. split; [|split; [|split; [reflexivity|split; [reflexivity|split; [reflexivity|]]]]].
  - intros k r. transitivity (exec_all strtof powf sid ref k (puts_at te (vec2_members g) r) [] st1); [|apply E].
    change (vec2_bzz_with g r) with (Ss_cons (S_put (E_var (bs "math")) (E_str (bs "vec2")) (E_table F_nil)) (puts_at te (vec2_members g) r)). apply seq_step.
    cbn [Source.exec Source.eval obind fill]. unfold var_val. cbn [var_get]. rewrite HG. cbn [put_val is_key bind_self set_tabs s_heap]. fold a. unfold table_at. replace (0 <=? m) with true by lia.
    rewrite nth_error_app1 by exact Lm. rewrite HT. cbn [obind]. fold (key "vec2"%string). rewrite E1. cbn [of_res obind]. unfold st1. do 2 f_equal. unfold set_tabs. cbn [s_glob s_str s_ext]. f_equal. apply upd_app_l. exact Lm.
  - assert (HTa' : nth_error (s_heap st2) (Z.to_nat a) = Some t') by (eapply with_table_at; exact HTa).
    assert (HO : forall n, In n ["sqrt"; "sin"; "cos"; "atan"]%string -> member sid st2 "math" n (OClos false (sign32 (fid ("buzzmath_" ++ n)%string)) [OTab m])).
    { intros n Hn. apply HMath. assert (Hn' : In n vec2_keys) by (unfold vec2_keys; apply in_app_iff; right; cbn in Hn |- *; tauto).
      rewrite O1; [|exact (HLV n Hn')|cbn in Hn; destruct Hn as [<-|[<-|[<-|[<-|[]]]]]; reflexivity].
      destruct (HM n (V_C ("buzzmath_" ++ n)%string)) as (o & HD & (i & Hi & Gi & Ti)); [cbn in Hn; destruct Hn as [<-|[<-|[<-|[<-|[]]]]]; cbn; tauto|]. cbn [denotes] in HD. subst o.
      destruct (HK n Hn') as [K1 K2]. unfold key. rewrite (sm_unique _ _ _ _ HS K1 Hi K2 Gi). exact Ti. }
    assert (HFd : forall n, In n ["buzzmath_sqrt"; "buzzmath_sin"; "buzzmath_cos"; "buzzmath_atan"]%string -> forall args st3, std_cfun c fid (sign32 (fid n)) args st3 =
      match find (fun e => String.eqb (fst e) n) (@std_meanings c X) with Some e => snd e args st3 | None => Unspec end).
    { intros n Hn args st3. destruct (HFid n Hn) as [F1 FN]. rewrite PgFun.sign32_id by lia. unfold std_cfun. f_equal.
      revert FN. generalize (@std_meanings c X). intros l. induction l as [|[n' m'] l IH]; intro FN; [reflexivity|]. cbn [find fst]. cbn [map fst] in FN. destruct (String.eqb_spec n' n) as [->|Hne]; [rewrite Z.eqb_refl; reflexivity|].
      replace (fid n' =? fid n) with false; [apply IH; intros; apply FN; [right|]; assumption|]. symmetry. apply Z.eqb_neq. intro Q. apply Hne, FN; [left; reflexivity|exact Q]. }
    constructor.
    + exact HGS.
    + apply HLV. cbn. tauto.
    + apply HLV. cbn. tauto.
    + intros n Hn. eexists. split; [apply HO; cbn in Hn |- *; tauto|]. eexists _, _. split; [reflexivity|]. intros args st3. cbn in Hn. destruct Hn as [<-|[<-|[<-|[]]]]; cbn [String.append]; rewrite HFd by (cbn; tauto); destruct args as [|? [|]]; reflexivity.
    + eexists. split; [apply HO; cbn; tauto|]. eexists _, _. split; [reflexivity|]. intros args st3. cbn [String.append]. rewrite HFd by (cbn; tauto). destruct args as [|? [|? [|]]]; reflexivity.
    + assert (HFV : forall n i f, In (n, i, f) (vec2_members g) -> In (mkFn i (bs "self" :: fst f) (snd f)) (functions (vec2_bzz_with g Ss_nil)) -> exists o, in_vec2 sid st2 n o /\ fun_value ref fns o f).
      { intros n i f Hin Hfn. exists (OClos true (ref i) [OTab a]). split.
        - exists (OTab a). split; [apply HMath; exact G1|]. unfold named. cbn [get_val is_key]. unfold table_at. replace (0 <=? a) with true by lia. rewrite HTa'. cbn [obind]. rewrite (I1 n i f Hin). reflexivity.
        - exists (ref i), (OTab a), (mkFn i (bs "self" :: fst f) (snd f)). split; [reflexivity|]. split; [|split; reflexivity]. exact (found_fun ref fns _ (HF _ Hfn) HU). }
      intros n Hn. cbn in Hn. 
      destruct Hn as [<-|Hn]; [eapply HFV; [unfold vec2_members; left; reflexivity|inlist]|].
      destruct Hn as [<-|Hn]; [eapply HFV; [unfold vec2_members; do 1 right; left; reflexivity|inlist]|].
      destruct Hn as [<-|Hn]; [eapply HFV; [unfold vec2_members; do 2 right; left; reflexivity|inlist]|].
      destruct Hn as [<-|Hn]; [eapply HFV; [unfold vec2_members; do 3 right; left; reflexivity|inlist]|].
      destruct Hn as [<-|Hn]; [eapply HFV; [unfold vec2_members; do 4 right; left; reflexivity|inlist]|].
      destruct Hn as [<-|Hn]; [eapply HFV; [unfold vec2_members; do 5 right; left; reflexivity|inlist]|].
      destruct Hn as [<-|Hn]; [eapply HFV; [unfold vec2_members; do 6 right; left; reflexivity|inlist]|].
      destruct Hn as [<-|Hn]; [eapply HFV; [unfold vec2_members; do 7 right; left; reflexivity|inlist]|].
      destruct Hn as [<-|Hn]; [eapply HFV; [unfold vec2_members; do 8 right; left; reflexivity|inlist]|].
      destruct Hn as [<-|Hn]; [eapply HFV; [unfold vec2_members; do 9 right; left; reflexivity|inlist]|]. destruct Hn.
  - exists m, t1, t'. split; [exact HG|]. unfold st2, with_table. cbn [set_tabs s_heap st1]. rewrite Ea. apply upd_snoc.
Qed.

(** ** C113: scripts that include vec2.bzz *)
(** A script that starts with the statements of vec2.bzz, by including it or otherwise: after them, the table math.vec2 has the functions of
    the file, and the rest of the script executes as the language says from there. *)
Theorem C113_vec2_bzz :
  forall strtof open name path text ps ts g r,
  let l := vec2_bzz_with g r in
  open name = Some (path, text) -> text ++ [NL] = layout ps -> reads open [path] path [] ps ts ->
  (forall t, In t ts -> t_line t < 2 ^ 63 /\ t_col t < 2 ^ 63 /\ plain_path (t_file t)) ->
  spells_script ts l -> ok_script strtof l = true ->
  NoDup (map fn_id (functions l)) -> zlen (nodup (list_eq_dec Z.eq_dec) (words l)) <= 65534 ->
  exists k0 asm, (forall k, (k0 <= k)%nat -> bzzparse open k [] name = Ok (Some asm)) /\
  (zlen asm < 2 ^ 31 ->
   exists code dbg sid ref,
     buzz_asm strtof asm = Ok (0, code, dbg) /\
     exists m, forall X (x : X) c fid robot flist powf fuel, std_registered c fid flist ->
     (forall n n', In n (map fst (@std_meanings c X)) -> In n' ["buzzmath_sqrt"; "buzzmath_sin"; "buzzmath_cos"; "buzzmath_atan"]%string -> fid n = fid n' -> n = n') -> (m <= fuel)%nat ->
     exists v, load_code flist powf code fuel (vm_new x) = Ok (v, true) /\
       (sm_live (v_str v) + zlen library_names < 65534 ->
        exists v1 st, load_all fid flist powf code robot fuel (vm_new x) = Ok (v1, S_READY) /\
          vec2_lib sid ref (functions l) (std_cfun c fid) c st /\ zlen (s_heap st) = zlen (v_heap v1) + 1 /\ s_str st = v_str v1 /\ strings_ok (s_str st) /\ s_ext st = x /\
          (forall n, executes code (keeping (v_str v)) sid (words l) (fun fuel => execute_script flist powf (byte code) (zlen code) fuel v1)
                       (run strtof powf sid ref (functions l) (std_cfun c fid) n r st)) /\
          ((forall n, run strtof powf sid ref (functions l) (std_cfun c fid) n r st = More) ->
           forall fuel, execute_script flist powf (byte code) (zlen code) fuel v1 = Hang))).
Proof.
  intros strtof open name path text ps ts g r l HO HT HR HP HS HOK HID HW.
  destruct (C103_standard_library strtof open name path text ps ts l HO HT HR HP HS HOK HID HW) as (k0 & asm & HC & H). exists k0, asm. split; [exact HC|]. intro HA.
  destruct (H HA) as (code & dbg & sid & ref & H1 & H2 & HRG & m & H3). exists code, dbg, sid, ref. split; auto. exists m. intros X x c fid robot flist powf fuel HG HFN Hf.
  destruct (H3 X x fid robot flist powf fuel Hf) as (v & V1 & V2). exists v. split; auto. intro HLv. destruct (V2 HLv) as (v1 & st & W1 & W2 & W3 & W4).
  destruct W3 as (_ & _ & _ & _ & _ & _ & AH & A4 & A5 & _ & A7 & A8).
  assert (HWD : forall n, In n vec2_keys -> In (bs n) (words l)).
  { let w := eval vm_compute in (words (vec2_bzz_with g r)) in assert (EW : words l = w) by (vm_compute; reflexivity).
    intros n Hn. rewrite EW. cbn in Hn. repeat (destruct Hn as [<-|Hn]; [vm_compute (bs _); inlist|]). destruct Hn. }
  destruct (loaded_vec2 X c fid robot _ st strtof powf sid ref (functions l) g W2) as (st' & L0 & L1 & L2 & L3 & L4 & (mm & tt' & w & L5 & L6)).
  { rewrite <- A4. exact (proj1 A7). }
  { intros n Hn. split; [apply HRG; auto|]. rewrite <- A4. apply A8; auto. }
  { intros n Hn. split; [|intros n' Hn' Q; exact (HFN n' n Hn' Hn Q)]. cbn in Hn.
    destruct Hn as [<-|[<-|[<-|[<-|[]]]]]; (eapply HG; unfold std_list; cbn [map app String.append]; inlist). }
  { intros f Hfn. apply (funs_app (vec2_bzz_with g Ss_nil) r). exact Hfn. }
  { exact H2. }
  exists v1, st'. split; [exact W1|]. split; [exact L1|]. split; [rewrite L6, zlen_app; unfold zlen at 1; rewrite upd_length; rewrite AH; reflexivity|]. split; [congruence|]. split; [rewrite L3, <- A4; exact (proj1 A7)|]. split; [rewrite L4; exact (lib_ext _ _ _ _ W2)|].
  assert (HRun : forall n, run strtof powf sid ref (functions l) (std_cfun c fid) n l st = run strtof powf sid ref (functions l) (std_cfun c fid) n r st') by (intro n; unfold run, l; rewrite L0; reflexivity).
  destruct (W4 _ (std_ok X c fid flist (v_str v) HG)) as [Z1 Z2]. split; [intro n; rewrite <- HRun; apply Z1|]. intros HM. apply Z2. intro n. rewrite HRun. apply HM.
Qed.
Print Assumptions C113_vec2_bzz.

(** ** A script *)
Definition vec_files (name : list Z) : option (list Z * list Z) :=
  if list_eq_dec Z.eq_dec name (bs "main") then Some (bs "/main", bs "include 'vec2.bzz'
u = math.vec2.new(3, -4)
v = math.vec2.new(10, 20)
s = math.vec2.add(u, v)
a = s.x
b = s.y
s = math.vec2.sub(u, v)
c = s.x
d = s.y
s = math.vec2.scale(u, 5)
e = s.x
f = s.y
g = math.vec2.dot(u, v)
n = size(s)
h = u.x")
  else if list_eq_dec Z.eq_dec name (bs "vec2.bzz") then vec2_bzz_file [] else None.
Definition vec_script : stats := got_script (script_of no_strtof_ vec_files 5000 (bs "main")).
Definition vec_code : list Z := got_code (buzz_asm no_strtof_ (got_asm (bzzparse vec_files 9000 [] (bs "main")))).
Definition vec_load : res (vm unit * vstat) := load_all demo_fid demo_flist no_powf vec_code 12 200 (vm_new tt).
Definition vec_vm : vm unit := got_vm vec_load.
Definition vec_sid (t : str) : Z := got_id (s2i_get (str2id (v_str vec_vm)) t).
Definition vec_glob {X} (v : vm X) (t : str) : obj := got_obj (gsym_get (v_gsyms v) (vec_sid t)).
Definition vec_end (g : str -> obj) : Prop :=
  g (bs "a") = OInt 13 /\ g (bs "b") = OInt 16 /\ g (bs "c") = OInt (-7) /\ g (bs "d") = OInt (-24) /\ g (bs "e") = OInt 15 /\ g (bs "f") = OInt (-20) /\
  g (bs "g") = OInt (-50) /\ g (bs "n") = OInt 2 /\ g (bs "h") = OInt 3.
Definition vec_shift : Z := Eval vm_compute in (fst (vec2_member "new" vec_script) - fst (vec2_member "new" vec2_bzz)).
(** It starts with the statements of vec2.bzz, and satisfies the hypotheses of C113; the machine does what the meaning says. *)
Example C113_C114_case :
  holds_script no_strtof_ vec_files (bs "main") vec_script /\ (exists g r, vec_script = vec2_bzz_with g r) /\
  NoDup (map fn_id (functions vec_script)) /\
  (forall n n', In n (map fst (@std_meanings demo_c unit)) -> In n' ["buzzmath_sqrt"; "buzzmath_sin"; "buzzmath_cos"; "buzzmath_atan"]%string -> demo_fid n = demo_fid n' -> n = n') /\ sm_live (v_str vec_vm) < 1000 /\
  done_with (fun st => vec_end (s_glob st))
    (run no_strtof_ no_powf vec_sid (fun i => i) (functions vec_script) (std_cfun demo_c demo_fid) 8 vec_script (mkSt (vec_glob vec_vm) (v_heap vec_vm) (v_str vec_vm) tt)) /\
  ok_with (fun w => v_state w = S_DONE /\ vec_end (vec_glob w)) (execute_script demo_flist no_powf (byte vec_code) (zlen vec_code) 20000 vec_vm).
Proof.
  split; [apply (script_of_ok _ _ 5000); vm_compute; reflexivity|]. split; [exists (fun i => i + vec_shift); vm_compute; eexists; reflexivity|].
  split; [apply (NoDup_count_occ' Z.eq_dec); intros x H; vm_compute in H; repeat (destruct H as [<-|H]; [vm_compute; reflexivity|]); destruct H|].
  split; [intros n n' Hn Hn'; cbn [std_meanings map app fst snd String.append] in Hn; cbn in Hn'; destruct Hn' as [<-|[<-|[<-|[<-|[]]]]]; repeat (destruct Hn as [<-|Hn]; [vm_compute; first [reflexivity|discriminate]|]); destruct Hn|].
  split; [vm_compute; reflexivity|]. split; vm_compute; repeat split.
Qed.
