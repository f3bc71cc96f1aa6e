(** The code of Gen.v can be assembled: every line can be written, every label used is defined once. *)
From Coq Require Import String.
From Verif Require Import Base ListLemmas Dict Strman Text TextProofs Instr Asm AsmSpec AsmProofs VmCode PropsLoad Source Gen GenExt PgBase PgSym PgExpr PgFun PgScript.
Local Open Scope Z_scope. Local Open Scope list_scope.

Ltac Zify.zify_post_hook ::= idtac.

(** ** Labels *)
Lemma labname_inj a b : 0 <= a < 2 ^ 63 -> 0 <= b < 2 ^ 63 -> labname a = labname b -> a = b.
Proof.
  intros Ha Hb H. unfold labname in H. apply app_inv_head in H. rewrite <- (strtol_print a), <- (strtol_print b) by auto. f_equal. exact H.
Qed.
Definition dl (p : list aline) : list str := flat_map (fun l => match l with L_label n _ => [n] | _ => [] end) p.
Definition ul (p : list aline) : list str := flat_map (fun l => match l with L_instr _ (P_label n) _ => [n] | _ => [] end) p.
Definition cnt (x : str) (p : list aline) : nat := count_occ (list_eq_dec Z.eq_dec) (dl p) x.
Definition chs (cs : list gchunk) : list aline := concat (map chunk_lines cs).
Definition is (x : str) (n : Z) : nat := if same x (labname n) then 1 else 0.
Lemma dl_app a b : dl (a ++ b) = dl a ++ dl b. Proof. unfold dl. apply flat_map_app. Qed.
Lemma ul_app a b : ul (a ++ b) = ul a ++ ul b. Proof. unfold ul. apply flat_map_app. Qed.
Lemma cnt_app x a b : cnt x (a ++ b) = (cnt x a + cnt x b)%nat.
Proof. unfold cnt. rewrite dl_app. apply count_occ_app. Qed.
Lemma cnt_lab x n p : cnt x (lab n :: p) = (is x n + cnt x p)%nat.
Proof.
  unfold cnt, lab, is, same. cbn [dl flat_map app count_occ]. fold (dl p). destruct (list_eq_dec Z.eq_dec (labname n) x), (list_eq_dec Z.eq_dec x (labname n)); try congruence; reflexivity.
Qed.
Lemma cnt_other x l p : (match l with L_label _ _ => False | _ => True end) -> cnt x (l :: p) = cnt x p.
Proof. destruct l; intros []; reflexivity. Qed.
Lemma chs_app a b : chs (a ++ b) = chs a ++ chs b. Proof. unfold chs. rewrite map_app, concat_app. reflexivity. Qed.

Definition Dc (x : str) (code : list aline) (cs : list gchunk) : nat := (cnt x code + cnt x (chs cs))%nat.
Definition Uses (x : str) (code : list aline) (cs : list gchunk) : Prop := In x (ul code) \/ In x (ul (chs cs)).
Definition Gok (g : gst) (code : list aline) (g' : gst) : Prop :=
  exists cs, g_chunks g' = g_chunks g ++ cs /\ g_lab g <= g_lab g' /\ g_lab g' - g_lab g <= address code + address (chs cs) /\
  (0 <= g_lab g -> g_lab g' <= 2 ^ 63 ->
   forall x, (Dc x code cs <= 1)%nat /\ (Uses x code cs -> (1 <= Dc x code cs)%nat) /\
             ((1 <= Dc x code cs)%nat -> exists n, x = labname n /\ g_lab g <= n < g_lab g')).
Lemma Gok_nil g : Gok g [] g.
Proof.
  exists []. rewrite app_nil_r. split; auto. split; [lia|]. split; [cbn; lia|]. intros _ _ x. cbn. split; [lia|]. split; [intros [[]|[]]|lia].
Qed.
Lemma Gok_seq g c1 g1 c2 g2 : Gok g c1 g1 -> Gok g1 c2 g2 -> Gok g (c1 ++ c2) g2.
Proof.
  intros (s1 & A1 & A2 & A3 & A4) (s2 & B1 & B2 & B3 & B4). exists (s1 ++ s2). split; [rewrite B1, A1, app_assoc; auto|]. split; [lia|].
  split; [rewrite chs_app, !address_cat; lia|]. intros H0 H1 x. destruct (A4 H0 ltac:(lia) x) as (C1 & C2 & C3). destruct (B4 ltac:(lia) H1 x) as (D1 & D2 & D3).
  assert (HD : Dc x (c1 ++ c2) (s1 ++ s2) = (Dc x c1 s1 + Dc x c2 s2)%nat) by (unfold Dc; rewrite chs_app, !cnt_app; lia). rewrite HD. split; [|split].
  - destruct (le_lt_dec 1 (Dc x c1 s1)) as [E1|E1]; [|lia]. destruct (le_lt_dec 1 (Dc x c2 s2)) as [E2|E2]; [|lia].
    destruct (C3 E1) as (n & -> & N1). destruct (D3 E2) as (m & M & N2). apply labname_inj in M; lia.
  - unfold Uses. rewrite chs_app, !ul_app, !in_app_iff. intros [[H|H]|[H|H]]; [enough (1 <= Dc x c1 s1)%nat by lia|enough (1 <= Dc x c2 s2)%nat by lia|enough (1 <= Dc x c1 s1)%nat by lia|enough (1 <= Dc x c2 s2)%nat by lia];
      first [apply C2|apply D2]; unfold Uses; auto.
  - intro H. destruct (le_lt_dec 1 (Dc x c1 s1)) as [E1|E1].
    + destruct (C3 E1) as (n & -> & N1). exists n. split; auto. lia.
    + destruct (D3 ltac:(lia)) as (n & -> & N1). exists n. split; auto. lia.
Qed.
(** Lines without labels around the code. *)
Lemma Gok_same g c g' c' : Gok g c g' -> dl c' = dl c -> incl (ul c') (ul c) -> address c <= address c' -> Gok g c' g'.
Proof.
  intros (cs & A1 & A2 & A3 & A4) E1 E2 E3. exists cs. split; auto. split; auto. split; [lia|]. intros H0 H1 x. specialize (A4 H0 H1 x).
  unfold Dc, cnt in *. rewrite E1. destruct A4 as (B1 & B2 & B3). split; auto. split; auto. intros [H|H]; apply B2; unfold Uses; auto.
Qed.
(** New labels around the code. *)
Lemma Gok_wrap g k c g' c' xs : 0 <= k -> Gok (labels g k) c g' -> (forall x, cnt x c' = (cnt x c + count_occ (list_eq_dec Z.eq_dec) (map labname xs) x)%nat) ->
  incl (ul c') (ul c ++ map labname xs) -> NoDup xs -> Forall (fun n => g_lab g <= n < g_lab g + k) xs -> address c + k <= address c' -> Gok g c' g'.
Proof.
  intros Hk (cs & A1 & A2 & A3 & A4) E1 E2 E3 E4 E5. cbn [labels g_lab g_chunks] in *. exists cs. split; auto. split; [lia|]. split; [lia|].
  intros H0 H1 x. destruct (A4 ltac:(lia) H1 x) as (B1 & B2 & B3). unfold Dc in *. rewrite E1.
  set (m := count_occ (list_eq_dec Z.eq_dec) (map labname xs) x).
  assert (HM1 : (1 <= m)%nat -> exists n, x = labname n /\ g_lab g <= n < g_lab g + k).
  { intro H. apply (count_occ_In (list_eq_dec Z.eq_dec)) in H. apply in_map_iff in H as (n & <- & Hn). rewrite Forall_forall in E4. eauto. }
  assert (HM2 : (m <= 1)%nat).
  { apply (proj1 (NoDup_count_occ (list_eq_dec Z.eq_dec) (map labname xs))). clear -E3 E4 H0 H1 A2. induction xs as [|n xs IH]; [constructor|].
    inversion E3; subst. inversion E4; subst. cbn [map]. constructor; auto. intro HI. apply in_map_iff in HI as (n' & HE & HI).
    rewrite Forall_forall in *. pose proof (H6 _ HI). apply labname_inj in HE; try lia. subst. contradiction. }
  split; [|split].
  - destruct (le_lt_dec 1 m) as [Em|Em]; [|lia]. destruct (le_lt_dec 1 (cnt x c + cnt x (chs cs))) as [Ec|Ec]; [|lia].
    destruct (HM1 Em) as (n & -> & N1). destruct (B3 Ec) as (n' & N2 & N3). apply labname_inj in N2; lia.
  - intros [H|H].
    + apply E2 in H. apply in_app_or in H as [H|H]; [enough (1 <= cnt x c + cnt x (chs cs))%nat by lia; apply B2; left; auto|].
      apply (count_occ_In (list_eq_dec Z.eq_dec)) in H. fold m in H. lia.
    + enough (1 <= cnt x c + cnt x (chs cs))%nat by lia. apply B2. right; auto.
  - intro H. destruct (le_lt_dec 1 m) as [Em|Em].
    + destruct (HM1 Em) as (n & -> & N1). exists n. split; auto. lia.
    + destruct (B3 ltac:(lia)) as (n & -> & N1). exists n. split; auto. lia.
Qed.
(** A function. *)
Lemma Gok_fun g nm fn l tl0 g1 code : Gok (mkG (g_lab g + 1) (g_strs g) []) l g1 -> dl tl0 = [] -> ul tl0 = [] -> address tl0 >= 1 -> dl code = [] -> incl (ul code) [labname (g_lab g)] ->
  Gok g code (mkG (g_lab g1) (g_strs g1) (g_chunks g ++ mkGc (g_lab g) nm fn (l ++ tl0) :: g_chunks g1)).
Proof.
  intros (cs & A1 & A2 & A3 & A4) T1 T2 T3 K1 K2. cbn [g_lab g_chunks app] in *. rewrite A1. eexists. split; [reflexivity|]. cbn [g_lab]. split; [lia|].
  set (c0 := mkGc (g_lab g) nm fn (l ++ tl0)).
  assert (HC : chs (c0 :: cs) = (L_blank :: lab (g_lab g) :: l ++ tl0) ++ chs cs) by reflexivity. rewrite HC.
  split.
  { rewrite !address_cat. cbn [address line_size lab]. rewrite address_cat. pose proof (address_pos code). lia. }
  intros H0 H1 x. destruct (A4 ltac:(lia) H1 x) as (B1 & B2 & B3). unfold Dc in *. rewrite HC.
  assert (EC : cnt x code = O) by (unfold cnt; rewrite K1; reflexivity). rewrite EC, cnt_app, cnt_other, cnt_lab, cnt_app by exact I.
  replace (cnt x tl0) with O by (unfold cnt; rewrite T1; reflexivity).
  assert (HI : (1 <= is x (g_lab g))%nat -> x = labname (g_lab g)). { unfold is. destruct (same x (labname (g_lab g))) eqn:E; [|lia]. intros _. apply same_eq; auto. }
  assert (HI2 : (is x (g_lab g) <= 1)%nat) by (unfold is; destruct (same _ _); lia).
  split; [|split].
  - destruct (le_lt_dec 1 (is x (g_lab g))) as [Em|Em]; [|lia]. destruct (le_lt_dec 1 (cnt x l + cnt x (chs cs))) as [Ec|Ec]; [|lia].
    rewrite (HI Em) in *. destruct (B3 Ec) as (n' & N2 & N3). apply labname_inj in N2; lia.
  - unfold Uses. rewrite HC. intros [H|H].
    + apply K2 in H as [<-|[]]. unfold is. rewrite same_refl. lia.
    + rewrite ul_app in H. cbn [ul flat_map app lab] in H. fold (ul (l ++ tl0)) in H. rewrite ul_app, T2, app_nil_r in H. enough (1 <= cnt x l + cnt x (chs cs))%nat by lia. apply B2. apply in_app_or in H. exact H.
  - intro H. destruct (le_lt_dec 1 (is x (g_lab g))) as [Em|Em].
    + exists (g_lab g). split; auto. lia.
    + destruct (B3 ltac:(lia)) as (n & -> & N1). exists n. split; auto. lia.
Qed.
Lemma Gok_addstr g s p g' c : addstr g s = (p, g') -> dl c = [] -> ul c = [] -> Gok g c g'.
Proof.
  intros H E1 E2. destruct (addstr_spec _ _ _ _ H) as (_ & _ & F1 & F2). exists []. rewrite F1, F2, app_nil_r. split; auto. split; [lia|]. split; [pose proof (address_pos c); cbn; lia|].
  intros _ _ x. unfold Dc, Uses, cnt. rewrite E1, E2. cbn. split; [lia|]. split; [intros [[]|[]]|lia].
Qed.
Lemma Gok_lit g c : dl c = [] -> ul c = [] -> Gok g c g.
Proof. intros. eapply Gok_same; [apply Gok_nil|rewrite H; reflexivity|rewrite H0; intros ? []|apply address_pos]. Qed.
Lemma Gok_load sc x g l g' : gen_load sc x g = (l, g') -> Gok g l g'.
Proof.
  unfold gen_load. destruct (slot sc x); [intro H; inversion H; apply Gok_lit; reflexivity|]. destruct (addstr g x) as [p g1] eqn:E. intro H; inversion H; subst. eapply Gok_addstr; eauto.
Qed.
Lemma endvars_plain a b : dl (endvars a b) = [] /\ ul (endvars a b) = [] /\ 0 <= address (endvars a b).
Proof. unfold endvars. destruct (nvars b - nvars a =? 0); split; auto; split; auto; try (cbn; lia). Qed.

Lemma dl_i o a d p : dl (L_instr o a d :: p) = dl p. Proof. reflexivity. Qed.
Lemma dl_l n d p : dl (L_label n d :: p) = n :: dl p. Proof. reflexivity. Qed.
Lemma ul_l n d p : ul (L_label n d :: p) = ul p. Proof. reflexivity. Qed.
Lemma ul_none o d p : ul (L_instr o P_none d :: p) = ul p. Proof. reflexivity. Qed.
Lemma ul_int o n d p : ul (L_instr o (P_int n) d :: p) = ul p. Proof. reflexivity. Qed.
Lemma ul_lab o n d p : ul (L_instr o (P_label n) d :: p) = n :: ul p. Proof. reflexivity. Qed.
Lemma cnt_i x o a d p : cnt x (L_instr o a d :: p) = cnt x p. Proof. reflexivity. Qed.
Lemma dl_nil : dl [] = []. Proof. reflexivity. Qed.
Lemma ul_nil : ul [] = []. Proof. reflexivity. Qed.
Lemma cnt_nil x : cnt x [] = O. Proof. reflexivity. Qed.
Lemma addr_cons l p : address (l :: p) = line_size l + address p. Proof. reflexivity. Qed.
Lemma addr_nil : address [] = 0. Proof. reflexivity. Qed.
Lemma lsize l : 0 <= line_size l. Proof. destruct l as [|s| |o|]; cbn [line_size]; try lia; [pose proof (zlen_nonneg s); lia|destruct (has_arg o); lia]. Qed.
Lemma lsize_i o a d : 1 <= line_size (L_instr o a d). Proof. cbn [line_size]. destruct (has_arg o); lia. Qed.
Ltac flat :=
  first [ unfold ins, insn, insl; repeat rewrite ?dl_app, ?dl_i, ?dl_nil; rewrite ?app_nil_r, ?app_assoc; reflexivity
        | unfold ins, insn, insl; repeat rewrite ?ul_app, ?ul_none, ?ul_int, ?ul_nil; rewrite ?app_nil_r, ?app_assoc; apply incl_refl
        | unfold ins, insn, insl; repeat rewrite ?address_cat, ?addr_cons, ?addr_nil; 
          repeat match goal with |- context [line_size ?l] => pose proof (lsize l); generalize dependent (line_size l); intros end; lia ].
Ltac gstep :=
  match goal with
  | |- context [gen_e ?sc ?e ?c ?g] => let H := fresh "G" in assert (H : Gok g (fst (gen_e sc e c g)) (snd (gen_e sc e c g))) by auto; destruct (gen_e sc e c g); cbn [fst snd] in H
  | |- context [gen_es ?sc ?e ?g] => let H := fresh "G" in assert (H : Gok g (fst (gen_es sc e g)) (snd (gen_es sc e g))) by auto; destruct (gen_es sc e g); cbn [fst snd] in H
  | |- context [gen_f ?sc ?e ?g] => let H := fresh "G" in assert (H : Gok g (fst (gen_f sc e g)) (snd (gen_f sc e g))) by auto; destruct (gen_f sc e g); cbn [fst snd] in H
  | |- context [gen_s ?sc ?e ?g] => let H := fresh "G" in assert (H : Gok g (fst (gen_s sc e g)) (snd (gen_s sc e g))) by auto; destruct (gen_s sc e g); cbn [fst snd] in H
  | |- context [gen_b ?sc ?e ?g] => let H := fresh "G" in assert (H : Gok g (fst (gen_b sc e g)) (snd (gen_b sc e g))) by auto; destruct (gen_b sc e g); cbn [fst snd] in H
  | |- context [gen_ss ?sc ?e ?g] => let H := fresh "G" in assert (H : Gok g (fst (gen_ss sc e g)) (snd (gen_ss sc e g))) by auto; destruct (gen_ss sc e g); cbn [fst snd] in H
  | |- context [gen_load ?sc ?x ?g] => let H := fresh "E" in destruct (gen_load sc x g) eqn:H
  | |- context [addstr ?g ?x] => let H := fresh "E" in destruct (addstr g x) eqn:H
  end.
Ltac chain :=
  lazymatch goal with
  | H1 : Gok ?g ?c1 ?g1, H2 : Gok ?g1 ?c2 ?g2 |- _ => pose proof (Gok_seq _ _ _ _ _ H1 H2); clear H1 H2; chain
  | _ => idtac
  end.
Lemma when_plain c o : dl (when c [ins o]) = [] /\ ul (when c [ins o]) = [] /\ 0 <= address (when c [ins o]).
Proof. destruct c; split; auto; split; auto; cbn; destruct (has_arg o); lia. Qed.
Ltac same := first [ eassumption | eapply Gok_same; [eassumption|flat|flat|flat] ].
Lemma cnt_two xs x : count_occ (list_eq_dec Z.eq_dec) (map labname xs) x = fold_right (fun n k => (is x n + k)%nat) O xs.
Proof.
  induction xs as [|n xs IH]; auto. cbn [map count_occ fold_right]. rewrite IH. unfold is, same.
  destruct (list_eq_dec Z.eq_dec (labname n) x), (list_eq_dec Z.eq_dec x (labname n)); try congruence; reflexivity.
Qed.
Ltac wrapped :=
  [> lia | eassumption
  | intro; rewrite cnt_two; unfold insl; repeat rewrite ?cnt_app, ?cnt_i, ?cnt_lab, ?cnt_nil; cbn [fold_right]; lia
  | unfold insl, lab; repeat rewrite ?ul_app, ?ul_none, ?ul_int, ?ul_lab, ?ul_l, ?ul_nil; intros y Hy; rewrite ?app_nil_r in *; rewrite ?in_app_iff in *; cbn [In map] in *; rewrite ?in_app_iff in *; cbn [In map] in *; rewrite ?in_app_iff in *; cbn [In map] in *; tauto
  | repeat (constructor; [cbn [In]; lia|]); constructor
  | repeat (constructor; [lia|]); constructor
  | unfold insl, lab; repeat rewrite ?address_cat, ?addr_cons, ?addr_nil; cbn [line_size]; change (has_arg I_JUMPZ) with true; change (has_arg I_JUMPNZ) with true; change (has_arg I_JUMP) with true; cbv iota; lia ].

Lemma gen_Gok :
  (forall e sc c g, Gok g (fst (gen_e sc e c g)) (snd (gen_e sc e c g))) /\ (forall l sc g, Gok g (fst (gen_es sc l g)) (snd (gen_es sc l g))) /\
  (forall l sc g, Gok g (fst (gen_f sc l g)) (snd (gen_f sc l g))) /\ (forall s sc g, Gok g (fst (gen_s sc s g)) (snd (gen_s sc s g))) /\
  (forall b sc g, Gok g (fst (gen_b sc b g)) (snd (gen_b sc b g))) /\ (forall l sc g, Gok g (fst (gen_ss sc l g)) (snd (gen_ss sc l g))).
Proof.
  apply ast_ind; intros; cbn [gen_e gen_es gen_f gen_s gen_b gen_ss]; repeat gstep; cbn [fst snd]; auto using Gok_nil; chain;
    try (same; fail).
  - apply Gok_lit; reflexivity.
  - apply Gok_lit; unfold num_line; destruct (dotted t); reflexivity.
  - eapply Gok_addstr; eauto.
  - apply Gok_load in E. destruct (when_plain c I_PUSHNIL) as (W1 & W2 & W3). eapply Gok_same; [exact E|rewrite dl_app, W1; reflexivity|rewrite ul_app, W2; apply incl_refl|rewrite address_cat; lia].
  - destruct (when_plain c I_DUP) as (W1 & W2 & W3). eapply Gok_same; [eassumption|rewrite !dl_app, W1; cbn; rewrite app_nil_r; reflexivity|rewrite !ul_app, W2; cbn; rewrite app_nil_r; apply incl_refl|rewrite !address_cat; cbn; lia].
  - destruct (when_plain c I_PUSHNIL) as (W1 & W2 & W3). eapply Gok_same; [eassumption|rewrite !dl_app, W1; cbn; rewrite app_nil_r; reflexivity|rewrite !ul_app, W2; cbn; rewrite app_nil_r; apply incl_refl|rewrite !address_cat; cbn; lia].
  - destruct (endvars_plain (Local (fun_vars sc params)) (afters (Local (fun_vars sc params)) body)) as (V1 & V2 & V3).
    apply Gok_fun; auto; try reflexivity; try (rewrite ?dl_app, ?ul_app, ?V1, ?V2; reflexivity); [rewrite address_cat; change (address [ins I_RET0]) with 1; lia|apply incl_refl].
  - destruct sc; repeat gstep; cbn [fst snd]; try (eapply Gok_addstr; eauto; fail). apply Gok_lit; reflexivity.
  - destruct sc; repeat gstep; cbn [fst snd]; try (pose proof (Gok_addstr _ _ _ _ [] E eq_refl eq_refl); chain); same.
  - destruct (slot sc x); repeat gstep; cbn [fst snd]; try (pose proof (Gok_addstr _ _ _ _ [] E eq_refl eq_refl); chain); same.
  - eapply (Gok_wrap g 2) with (xs := [g_lab g]); wrapped.
  - eapply (Gok_wrap g 2) with (xs := [g_lab g; g_lab g + 1]); wrapped.
  - eapply (Gok_wrap g 2) with (xs := [g_lab g; g_lab g + 1]); wrapped.
  - eapply (Gok_wrap g 4) with (xs := [g_lab g; g_lab g + 1; g_lab g + 2; g_lab g + 3]); wrapped.
  - apply Gok_lit; reflexivity.
  - destruct (endvars_plain (Local (fun_vars Top params)) (afters (Local (fun_vars Top params)) body)) as (V1 & V2 & V3).
    apply (Gok_seq g [] g1 []); [eapply Gok_addstr; eauto|].
    apply Gok_fun; auto; try reflexivity; try (rewrite ?dl_app, ?ul_app, ?V1, ?V2; reflexivity); [rewrite address_cat; change (address [ins I_RET0]) with 1; lia|intros ? []].
  - destruct (endvars_plain (inner sc) (afters (inner sc) l)) as (V1 & V2 & V3).
    eapply Gok_same; [eassumption|rewrite dl_app, V1, app_nil_r; reflexivity|rewrite ul_app, V2, app_nil_r; apply incl_refl|rewrite address_cat; lia].
Qed.

(** ** Lines *)
Section Lines.
Variable strtof : list Z -> option Z.
Notation line_ok := (line_ok strtof).
Notation ok_e := (ok_e strtof). Notation ok_es := (ok_es strtof). Notation ok_f := (ok_f strtof).
Notation ok_s := (ok_s strtof). Notation ok_b := (ok_b strtof). Notation ok_ss := (ok_ss strtof).

Definition fine (n : Z) : Prop := 0 <= n < 2 ^ 63.
Lemma labname_ok n : fine n -> label_name (labname n).
Proof.
  intro H. exists (bs "__label_" ++ print_u n). split; [reflexivity|]. split; [discriminate|]. unfold labname. apply Forall_app. split.
  - repeat constructor; discriminate.
  - unfold fine in H. eapply Forall_impl; [|apply (print_u_plain n); lia]. intros c. unfold plain, isspace, COMMA, BAR. intros. lia.
Qed.
Definition cf (c : gchunk) : Prop := fine (gc_label c) /\ Forall line_ok (gc_code c) /\ exists q, gc_code c = q ++ [ins I_RET0].
Definition Lok (g : gst) (code : list aline) (g' : gst) : Prop :=
  ext g g' /\ (0 <= g_lab g -> g_lab g' <= 2 ^ 63 -> fits g' -> Forall cf (g_chunks g) -> Forall line_ok code /\ Forall cf (g_chunks g')).
Lemma Lok_seq g c1 g1 c2 g2 : Lok g c1 g1 -> Lok g1 c2 g2 -> Lok g (c1 ++ c2) g2.
Proof.
  intros (E1 & H1) (E2 & H2). split; [eapply ext_trans; eauto|]. intros A B C D. pose proof E1 as (_ & L1 & _). pose proof E2 as (_ & L2 & _).
  destruct H1 as (F1 & F2); auto; try lia; [eapply fits_ext; eauto|]. destruct H2 as (F3 & F4); auto; try lia. split; auto. apply Forall_app; auto.
Qed.
Lemma Lok_lit g c : (0 <= g_lab g -> g_lab g <= 2 ^ 63 -> Forall line_ok c) -> Lok g c g.
Proof. intro H. split; [apply ext_refl|]. auto. Qed.
Lemma lab_ok n : fine n -> line_ok (lab n).
Proof. intro H. split; [apply labname_ok; auto|exact I]. Qed.
Lemma insl_ok o n : fine n -> arg_kind o = A_label \/ arg_kind o = A_int -> line_ok (insl o n).
Proof. intros H E. cbn [insl AsmSpec.line_ok]. split; [exact I|]. destruct E as [E|E]; rewrite E; apply labname_ok; auto. Qed.
Lemma insn_ok o n : int32_range n -> arg_kind o = A_int -> line_ok (insn o n).
Proof. intros H E. cbn [insn AsmSpec.line_ok]. split; [exact I|]. rewrite E. auto. Qed.
Lemma ins_ok o : arg_kind o = A_none -> line_ok (ins o).
Proof. intros E. cbn [ins AsmSpec.line_ok]. split; [exact I|]. rewrite E. auto. Qed.
Lemma Lok_ins g o : arg_kind o = A_none -> Lok g [ins o] g.
Proof. intro H. apply Lok_lit. intros. constructor; [apply ins_ok; auto|constructor]. Qed.
Lemma Lok_insn g o n : int32_range n -> arg_kind o = A_int -> Lok g [insn o n] g.
Proof. intros. apply Lok_lit. intros. constructor; [apply insn_ok; auto|constructor]. Qed.
Lemma addr_small g p : fits g -> 0 <= p < zlen (g_strs g) -> int32_range p.
Proof. unfold fits, int32_range. lia. Qed.
(** The position of a string as an operand. *)
Lemma Lok_addstr g s p g' : addstr g s = (p, g') -> Lok g [insn I_PUSHS p] g'.
Proof.
  intro H. pose proof (ext_addstr g s) as HE. rewrite H in HE. cbn [snd] in HE. destruct (addstr_spec _ _ _ _ H) as (H1 & _ & _ & H2). split; auto. intros _ _ HF HC.
  rewrite H2. split; auto. constructor; [|constructor]. apply insn_ok; [|reflexivity]. apply index_range in H1. eapply addr_small; eauto.
Qed.
Lemma Lok_addstr0 g s p g' : addstr g s = (p, g') -> Lok g [] g'.
Proof.
  intro H. pose proof (ext_addstr g s) as HE. rewrite H in HE. cbn [snd] in HE. destruct (addstr_spec _ _ _ _ H) as (H1 & _ & _ & H2). split; auto. intros _ _ HF HC.
  rewrite H2. split; auto.
Qed.
Definition sfew (sc : Source.scope) : Prop := match sc with Local l => few l = true | _ => True end.
Lemma slot_range sc x i : sfew sc -> slot sc x = Some i -> int32_range i.
Proof. destruct sc; cbn [sfew slot]; try discriminate. intros H E. apply index_range in E. apply few_nodup in H as [_ H]. unfold int32_range. lia. Qed.
Lemma Lok_load sc x g l g' : sfew sc -> gen_load sc x g = (l, g') -> Lok g l g'.
Proof.
  intro HS. unfold gen_load. destruct (slot sc x) eqn:E; [intro H; inversion H; apply Lok_insn; [eapply slot_range; eauto|reflexivity]|].
  destruct (addstr g x) as [p g1] eqn:EA. intro H; inversion H; subst. apply (Lok_seq g [insn I_PUSHS p] g' [ins I_GLOAD]); [eapply Lok_addstr; eauto|apply Lok_ins; reflexivity].
Qed.
Lemma Lok_when g c o : arg_kind o = A_none -> Lok g (when c [ins o]) g.
Proof. intro H. destruct c; [apply Lok_ins; auto|apply Lok_lit; constructor]. Qed.
Lemma afters_few ss : forall sc, ok_ss sc ss = true -> sfew sc -> sfew (afters sc ss).
Proof.
  induction ss as [|s ss IH]; intros sc HO HS; cbn [afters]; auto. cbn [Source.ok_ss] in HO. apply andb_true_iff in HO as [H1 H2]. apply IH; auto.
  destruct s; cbn [after]; auto; destruct sc as [| |l]; cbn [declare sfew] in *; auto; cbn [Source.ok_s declarable] in H1; auto. apply andb_true_iff in H1 as [H1 _]. auto.
Qed.
Lemma Lok_endvars g sc ss : ok_ss sc ss = true -> sfew sc -> Lok g (endvars sc (afters sc ss)) g.
Proof.
  intros HO HS. unfold endvars. destruct (nvars (afters sc ss) - nvars sc =? 0); [apply Lok_lit; constructor|]. apply Lok_insn; [|reflexivity].
  pose proof (afters_few _ _ HO HS) as HA. destruct sc as [| |l].
  - assert (E : forall ss sc, sc <> TopBlock -> match sc with Local _ => False | _ => True end -> nvars (afters sc ss) = 0).
    { clear. induction ss as [|s ss IH]; intros sc H1 H2; cbn [afters]; [destruct sc; auto; contradiction|]. destruct sc; try contradiction; try congruence. destruct s; apply IH; cbn; congruence. }
    rewrite E by (auto; congruence). cbn. unfold int32_range. lia.
  - assert (E : forall ss, afters TopBlock ss = TopBlock). { clear. induction ss as [|s ss IH]; auto. cbn [afters]. destruct s; cbn [after declare]; auto. }
    rewrite E. cbn. unfold int32_range. lia.
  - destruct (afters_local ss l) as (d & E). rewrite E in *. cbn [nvars sfew] in *. apply few_nodup in HA as [_ HA]. rewrite zlen_app in *. pose proof (zlen_nonneg l). pose proof (zlen_nonneg d). unfold int32_range. lia.
Qed.
Lemma Lok_fun g nm fn l c g1 : (exists q, l ++ c = q ++ [ins I_RET0]) -> Lok (mkG (g_lab g + 1) (g_strs g) []) (l ++ c) g1 ->
  Lok g (match nm with None => [insl I_PUSHL (g_lab g)] | Some _ => [] end) (mkG (g_lab g1) (g_strs g1) (g_chunks g ++ mkGc (g_lab g) nm fn (l ++ c) :: g_chunks g1)).
Proof.
  intros HQ (E & H). split; [eapply ext_fun; eauto|]. cbn [g_lab g_strs g_chunks] in *. intros A B C D. pose proof E as (_ & EL & _). cbn [g_lab] in EL.
  destruct H as (H1 & H2); auto; [lia|]. split.
  - destruct nm; [constructor|]. constructor; [|constructor]. apply insl_ok; [unfold fine; lia|right; reflexivity].
  - apply Forall_app. split; auto. constructor; auto. split; [unfold fine; cbn; lia|split; [exact H1|exact HQ]].
Qed.
Lemma Lok_num g t : numeral strtof t = true -> Lok g [num_line t] g.
Proof.
  intro H. apply Lok_lit. intros _ _. constructor; [|constructor]. unfold numeral in H. apply andb_true_iff in H as [H H2]. apply andb_true_iff in H as [H0 H1].
  assert (HW : word t).
  { split; [destruct t; [discriminate|congruence]|]. rewrite forallb_forall in H1. apply Forall_forall. intros c Hc. specialize (H1 c Hc).
    apply andb_true_iff in H1 as [H1 H3]. apply andb_true_iff in H1 as [H1 H4]. apply negb_true_iff in H1, H3, H4. split; auto. lia. }
  unfold num_line. destruct (dotted t); cbn [AsmSpec.line_ok arg_kind]; split; try exact I; (split; [exact HW|]).
  - destruct (strtof t); [eauto|discriminate].
  - destruct (strtoul t); [eauto|discriminate].
Qed.
(** Labels taken before the code, used in lines around it. *)
Lemma Lok_wrap g k c g' c' : 0 <= k -> Lok (labels g k) c g' ->
  ((forall n, g_lab g <= n < g_lab g + k -> fine n) -> Forall line_ok c -> Forall line_ok c') -> Lok g c' g'.
Proof.
  intros Hk (E & H) HC. split; [eapply ext_trans; [apply (ext_labels g k Hk)|exact E]|]. intros A B C D. destruct E as (_ & EL & _). cbn [labels g_lab g_chunks] in *.
  destruct H as (H1 & H2); auto; [lia|]. split; auto. apply HC; auto. intros n Hn. unfold fine. lia.
Qed.
Lemma bin_none b : arg_kind (bin_op b) = A_none. Proof. destruct b; reflexivity. Qed.
Lemma un_none b : arg_kind (un_op b) = A_none. Proof. destruct b; reflexivity. Qed.
Lemma count_nn l : 0 <= count l. Proof. induction l; cbn [count]; lia. Qed.
Lemma inner_few sc : sfew sc -> sfew (inner sc). Proof. destruct sc; cbn; auto. Qed.
Lemma declare_few sc x : declarable sc x = true -> sfew (declare sc x). Proof. destruct sc; cbn; auto. Qed.

Ltac ands := repeat match goal with H : (_ && _)%bool = true |- _ => apply andb_true_iff in H as [? ?] end.
Ltac lstep :=
  match goal with
  | |- context [gen_e ?sc ?e ?c ?g] => let H := fresh "G" in assert (H : Lok g (fst (gen_e sc e c g)) (snd (gen_e sc e c g))) by auto; destruct (gen_e sc e c g); cbn [fst snd] in H
  | |- context [gen_es ?sc ?e ?g] => let H := fresh "G" in assert (H : Lok g (fst (gen_es sc e g)) (snd (gen_es sc e g))) by auto; destruct (gen_es sc e g); cbn [fst snd] in H
  | |- context [gen_f ?sc ?e ?g] => let H := fresh "G" in assert (H : Lok g (fst (gen_f sc e g)) (snd (gen_f sc e g))) by auto; destruct (gen_f sc e g); cbn [fst snd] in H
  | |- context [gen_s ?sc ?e ?g] => let H := fresh "G" in assert (H : Lok g (fst (gen_s sc e g)) (snd (gen_s sc e g))) by auto; destruct (gen_s sc e g); cbn [fst snd] in H
  | |- context [gen_b ?sc ?e ?g] => let H := fresh "G" in assert (H : Lok g (fst (gen_b sc e g)) (snd (gen_b sc e g))) by auto; destruct (gen_b sc e g); cbn [fst snd] in H
  | |- context [gen_ss ?sc ?e ?g] => let H := fresh "G" in assert (H : Lok g (fst (gen_ss sc e g)) (snd (gen_ss sc e g))) by auto; destruct (gen_ss sc e g); cbn [fst snd] in H
  | |- context [gen_load ?sc ?x ?g] => let H := fresh "E" in destruct (gen_load sc x g) eqn:H
  | |- context [addstr ?g ?x] => let H := fresh "E" in destruct (addstr g x) eqn:H
  end.
Lemma Lok_cons g l c g' g1 : Lok g [l] g1 -> Lok g1 c g' -> Lok g (l :: c) g'.
Proof. apply (Lok_seq g [l] g1 c g'). Qed.
Ltac atom := first [ eassumption | apply Lok_ins; first [apply bin_none|apply un_none|reflexivity] | apply Lok_when; reflexivity | eapply Lok_addstr; eassumption ].
Ltac seqs := repeat first [ atom | eapply Lok_seq; [atom|] | eapply Lok_cons; [atom|] ].
Ltac lines := intros HFine HL; repeat match goal with H : Forall _ (_ ++ _) |- _ => apply Forall_app in H as [? ?] end;
  repeat first [ assumption | apply Forall_nil | apply Forall_app; split | apply Forall_cons
               | apply insl_ok; [apply HFine; lia|left; reflexivity] | apply lab_ok; apply HFine; lia ].
Lemma gen_Lok :
  (forall e sc c g, ok_e sc e = true -> sfew sc -> Lok g (fst (gen_e sc e c g)) (snd (gen_e sc e c g))) /\
  (forall l sc g, ok_es sc l = true -> sfew sc -> Lok g (fst (gen_es sc l g)) (snd (gen_es sc l g))) /\
  (forall l sc g, ok_f sc l = true -> sfew sc -> Lok g (fst (gen_f sc l g)) (snd (gen_f sc l g))) /\
  (forall s sc g, ok_s sc s = true -> sfew sc -> Lok g (fst (gen_s sc s g)) (snd (gen_s sc s g))) /\
  (forall b sc g, ok_b sc b = true -> sfew sc -> Lok g (fst (gen_b sc b g)) (snd (gen_b sc b g))) /\
  (forall l sc g, ok_ss sc l = true -> sfew sc -> Lok g (fst (gen_ss sc l g)) (snd (gen_ss sc l g))).
Proof.
  apply ast_ind; intros; cbn [gen_e gen_es gen_f gen_s gen_b gen_ss Source.ok_e Source.ok_es Source.ok_f Source.ok_s Source.ok_b Source.ok_ss] in *; ands;
    try (repeat lstep; cbn [fst snd]; seqs; fail).
  - cbn [fst snd]. apply Lok_num; auto.
  - lstep. cbn [fst snd]. eapply Lok_seq; [atom|]. eapply Lok_load; eauto.
  - repeat lstep. cbn [fst snd]. assert (HN : int32_range (count args)) by (unfold call_ok in *; ands; pose proof (count_nn args); unfold int32_range; lia).
    eapply Lok_seq; [atom|]. eapply Lok_seq; [atom|]. eapply Lok_seq; [atom|]. eapply Lok_cons; [apply Lok_insn; [exact HN|reflexivity]|atom].
  - repeat lstep. cbn [fst snd]. apply (Lok_fun g None _ l _ g0); [rewrite app_assoc; eexists; reflexivity|]. eapply Lok_seq; [atom|]. eapply Lok_seq; [apply Lok_endvars; auto|atom].
  - apply Lok_lit; constructor.
  - apply Lok_lit; constructor.
  - destruct sc; repeat lstep; cbn [fst snd]; try (seqs; fail). cbn [sfew declarable] in *. eapply Lok_cons; [atom|]. apply Lok_insn; [|reflexivity].
    apply few_nodup in H as [_ H]. rewrite zlen_app in H. change (zlen [x]) with 1 in H. pose proof (zlen_nonneg l). unfold int32_range. lia.
  - pose proof (declare_few _ _ H0) as HD. destruct sc; repeat lstep; cbn [fst snd]; try (seqs; fail). cbn [sfew declarable] in *.
    assert (HN : int32_range (zlen l)). { apply few_nodup in H0 as [_ H0]. rewrite zlen_app in H0. change (zlen [x]) with 1 in H0. pose proof (zlen_nonneg l). unfold int32_range. lia. }
    eapply Lok_cons; [atom|]. eapply Lok_cons; [apply Lok_insn; [exact HN|reflexivity]|]. eapply Lok_seq; [atom|]. apply Lok_insn; [exact HN|reflexivity].
  - destruct (slot sc x) eqn:ES; repeat lstep; cbn [fst snd]; try (seqs; fail). eapply Lok_seq; [atom|]. apply Lok_insn; [eapply slot_range; eauto|reflexivity].
  - repeat lstep. cbn [fst snd]. assert (HN : int32_range (count args)) by (unfold call_ok in *; ands; pose proof (count_nn args); unfold int32_range; lia).
    eapply Lok_seq; [atom|]. eapply Lok_seq; [atom|]. eapply Lok_cons; [apply Lok_insn; [exact HN|reflexivity]|]. seqs.
  - repeat lstep. cbn [fst snd]. apply (Lok_wrap g 2 (l ++ l0)); [lia|seqs|]. lines.
  - repeat lstep. cbn [fst snd]. apply (Lok_wrap g 2 (l ++ l0 ++ l1)); [lia|seqs|]. lines.
  - repeat lstep. cbn [fst snd]. apply (Lok_wrap g 2 (l ++ l0)); [lia|seqs|]. lines.
  - repeat lstep. cbn [fst snd]. apply (Lok_wrap g 4 (l ++ l0 ++ l1 ++ l2)); [lia|seqs|]. lines.
  - destruct sc; try discriminate. ands. lstep. cbn [snd]. repeat lstep. cbn [fst snd]. apply (Lok_seq g [] g1 []); [eapply Lok_addstr0; eauto|].
    apply (Lok_fun g1 (Some name) _ l _ g0); [rewrite app_assoc; eexists; reflexivity|]. eapply Lok_seq; [atom|]. eapply Lok_seq; [apply Lok_endvars; auto|atom].
  - pose proof (inner_few _ H1) as HI. repeat lstep. cbn [fst snd]. eapply Lok_seq; [atom|]. apply Lok_endvars; auto.
  - apply Lok_lit; constructor.
  - lstep. assert (HA : sfew (after sc s)).
    { destruct s; cbn [after]; auto; cbn [Source.ok_s] in *; ands; apply declare_few; auto. }
    lstep. cbn [fst snd]. seqs.
Qed.

(** ** The whole program *)
Lemma nodbg_size l : line_size (nodbg l) = line_size l. Proof. destruct l; reflexivity. Qed.
Lemma nodbg_address p : address (map nodbg p) = address p.
Proof. induction p as [|l p IH]; cbn [map address]; auto. rewrite nodbg_size, IH. reflexivity. Qed.
Lemma nodbg_dl p : dl (map nodbg p) = dl p.
Proof. induction p as [|l p IH]; auto. cbn [map dl flat_map]. fold (dl p). fold (dl (map nodbg p)). rewrite IH. destruct l; reflexivity. Qed.
Lemma nodbg_ul p : ul (map nodbg p) = ul p.
Proof. induction p as [|l p IH]; auto. cbn [map ul flat_map]. fold (ul p). fold (ul (map nodbg p)). rewrite IH. destruct l; reflexivity. Qed.
Lemma nodbg_lines p : Forall line_ok (map nodbg p) -> Forall dbg_fine p -> Forall line_ok p.
Proof.
  induction p as [|l p IH]; cbn [map]; intros H1 H2; [constructor|]. inversion H1; inversion H2; subst. constructor; auto.
  destruct l; cbn [nodbg setdbg AsmSpec.line_ok dbg_fine dbg_of] in *; auto; match goal with H : _ /\ _ |- _ => destruct H end; split; auto.
Qed.
Lemma uses_ul p x : uses p x -> In x (ul p).
Proof.
  intros (o & d & H). unfold ul. apply in_flat_map. exists (L_instr o (P_label x) d). split; auto. left; auto.
Qed.
Lemma dl_defined p x : In x (dl p) -> exists p1 d p2, p = p1 ++ L_label x d :: p2.
Proof.
  unfold dl. intro H. apply in_flat_map in H as (l & H1 & H2). apply in_split in H1 as (p1 & p2 & ->). destruct l; try contradiction. destruct H2 as [<-|[]]. eauto.
Qed.
Lemma labels_from p q o a d : p = q ++ [L_instr o a d] -> NoDup (dl p) -> incl (ul p) (dl p) -> labels_ok p.
Proof.
  intros EP HN HI. split.
  - intros x Hx. apply uses_ul, HI, dl_defined in Hx as (p1 & d' & p2 & E). exists (address p1). split; [exists p1, d', p2; auto|].
    rewrite E, address_cat, addr_cons. cbn [line_size]. destruct p2 as [|y p2 _] using rev_ind.
    + rewrite EP in E. change [L_instr o a d] with ([] ++ [L_instr o a d]) in E. apply (app_inj_tail q p1) in E as [_ E]. discriminate.
    + rewrite EP in E. replace (p1 ++ L_label x d' :: p2 ++ [y]) with ((p1 ++ L_label x d' :: p2) ++ [y]) in E by (rewrite <- app_assoc; reflexivity).
      apply app_inj_tail in E as [_ <-]. rewrite address_cat, addr_cons, addr_nil. pose proof (lsize_i o a d). pose proof (address_pos p2). lia.
  - intros x a1 b1 (p1 & d1 & q1 & E1 & ->) (p2 & d2 & q2 & E2 & ->). f_equal. clear EP HI. revert p2 p E1 HN E2. induction p1 as [|y p1 IH]; intros p2 p E1 HN E2.
    + destruct p2 as [|z p2]; auto. cbn [app] in *. rewrite E1 in E2. inversion E2; subst. rewrite dl_l in HN. inversion HN as [|? ? HN1 _]; subst. exfalso. apply HN1.
      rewrite dl_app, dl_l. apply in_or_app. right; left; auto.
    + destruct p2 as [|z p2]; cbn [app] in *.
      * rewrite E2 in E1. inversion E1; subst. rewrite dl_l in HN. inversion HN as [|? ? HN1 _]; subst. exfalso. apply HN1. rewrite dl_app, dl_l. apply in_or_app. right; left; auto.
      * rewrite E1 in E2. inversion E2; subst. f_equal. eapply IH; eauto. unfold dl in *. cbn [flat_map] in HN. clear -HN. destruct z; auto. inversion HN; auto.
Qed.
Lemma exit_not_lab n : exitpoint <> labname n. Proof. discriminate. Qed.
Lemma gdefs_in strs cs x : In x (ul (concat (map def_code (flat_map (fun gc => match gc_name gc with
    | Some x => match index x strs with Some p => [(p, labname (gc_label gc))] | None => [] end | None => [] end) cs)))) -> In x (dl (chs cs)).
Proof.
  induction cs as [|c cs IH]; [auto|]. cbn [flat_map]. rewrite map_app, concat_app, ul_app. intro H. unfold chs. cbn [map concat]. rewrite dl_app. apply in_or_app.
  apply in_app_or in H as [H|H]; [left|right; auto]. destruct (gc_name c); [|destruct H]. destruct (index s strs); [|destruct H]. destruct H as [<-|[]]. left. reflexivity.
Qed.
Lemma plain_defs p : dl (concat (map def_code p)) = [].
Proof. induction p as [|d p IH]; [reflexivity|]. cbn [map concat]. rewrite dl_app, IH. reflexivity. Qed.
Lemma plain_strs l : dl (map L_string l) = [] /\ ul (map L_string l) = [].
Proof. induction l as [|s l [IH1 IH2]]; auto. Qed.
Lemma gdefs_range g d : In d (gdefs g) -> 0 <= fst d < zlen (g_strs g).
Proof.
  unfold gdefs. intro H. apply in_flat_map in H as (c & _ & H). destruct (gc_name c); [|destruct H]. destruct (index s (g_strs g)) eqn:E; [|destruct H]. destruct H as [<-|[]]. apply index_range in E. exact E.
Qed.

Lemma chunks_last cs : Forall cf cs -> cs = [] \/ exists q, chs cs = q ++ [ins I_RET0].
Proof.
  destruct cs as [|c cs _] using rev_ind; [auto|]. intro H. right. apply Forall_app in H as [_ H]. inversion H as [|? ? (_ & _ & q & E) _]; subst.
  rewrite chs_app. unfold chs at 2. cbn [map concat]. unfold chunk_lines. rewrite E, app_nil_r. exists (chs cs ++ L_blank :: lab (gc_label c) :: q). rewrite <- app_assoc. reflexivity.
Qed.
Definition ends (l : list aline) : Prop := exists q o a, l = q ++ [L_instr o a None].
Lemma ends_app a b : ends b -> ends (a ++ b).
Proof. intros (q & o & x & ->). exists (a ++ q), o, x. apply app_assoc. Qed.
Lemma ends_cons a b : ends b -> ends (a :: b). Proof. apply (ends_app [a]). Qed.
Theorem program_ok l p : ok_script strtof l = true -> map nodbg p = gen_program l -> Forall dbg_fine p ->
  zlen (g_strs (snd (gen_script l))) <= 65535 -> Forall chars_ok (g_strs (snd (gen_script l))) -> address p < 2 ^ 31 ->
  lines_ok strtof p /\ labels_ok p /\ Forall cf (g_chunks (snd (gen_script l))) /\
  NoDup (dl p) /\ lines_ok strtof (gen_program l).
Proof.
  intros HO HM HD HL HC HA. apply andb_true_iff in HO as [HO _].
  rewrite <- nodbg_address, HM in HA. pose proof HM as EM. rewrite <- EM. unfold gen_program, gen_body in *.
  assert (HG : Gok (mkG 1 [] []) (fst (gen_script l)) (snd (gen_script l))) by apply gen_Gok.
  assert (HK : Lok (mkG 1 [] []) (fst (gen_script l)) (snd (gen_script l))) by (apply gen_Lok; auto; exact I).
  destruct (gen_script l) as [code g]. cbn [fst snd] in *.
  destruct HG as (cs & G1 & G2 & G3 & G4). destruct HK as (K1 & K2). cbn [g_lab g_chunks g_strs app] in *. subst cs. unfold program in *. fold (chs (g_chunks g)) in *.
  assert (HB : g_lab g <= 2 ^ 63).
  { unfold main_lines in HA. cbn [app] in HA. repeat first [rewrite addr_cons in HA|rewrite address_cat in HA]. rewrite addr_nil in HA.
    repeat match type of HA with context [line_size ?x] => pose proof (lsize x); generalize dependent (line_size x); intros end.
    pose proof (address_pos (map L_string (g_strs g))). pose proof (address_pos (concat (map def_code (gdefs g)))).
    pose proof (address_pos [L_blank; L_label exitpoint None; ins I_DONE]). lia. }
  specialize (G4 ltac:(lia) HB). destruct (K2 ltac:(lia) HB HL (Forall_nil _)) as (K3 & K4).
  assert (HLN : Forall line_ok (map nodbg p)).
  { rewrite HM. unfold main_lines. constructor; [unfold AsmSpec.line_ok; pose proof (zlen_nonneg (g_strs g)); lia|]. apply Forall_app. split.
    - apply Forall_forall. intros x Hx. apply in_map_iff in Hx as (s & <- & Hs). rewrite Forall_forall in HC. apply HC; auto.
    - constructor; [exact I|]. apply Forall_app. split.
      + apply Forall_forall. intros x Hx. apply in_concat in Hx as (ls & H1 & H2). apply in_map_iff in H1 as (d & <- & Hd).
        pose proof (gdefs_range _ _ Hd) as HR. unfold gdefs in Hd. apply in_flat_map in Hd as (c & Hc & Hd). rewrite Forall_forall in K4. destruct (K4 _ Hc) as (KF & _).
        destruct (gc_name c); [|destruct Hd]. destruct (index s (g_strs g)); [|destruct Hd]. destruct Hd as [<-|[]]. cbn [fst] in HR.
        destruct H2 as [<-|[<-|[<-|[]]]]; cbn [AsmSpec.line_ok arg_kind fst snd]; split; try exact I; [unfold int32_range; lia|apply labname_ok; auto].
      + constructor; [apply ins_ok; reflexivity|]. apply Forall_app. split.
        * constructor; [exact I|]. constructor; [apply lab_ok; unfold fine; lia|]. apply Forall_app. split; auto. constructor; [exact I|]. constructor; [|constructor; [apply ins_ok; reflexivity|constructor]].
          cbn [AsmSpec.line_ok]. split; [|exact I]. exists (bs "__exitpoint"). split; [reflexivity|]. split; [discriminate|]. repeat constructor; discriminate.
        * apply Forall_forall. intros x Hx. apply in_concat in Hx as (ls & H1 & H2). apply in_map_iff in H1 as (c & <- & Hc). rewrite Forall_forall in K4. destruct (K4 _ Hc) as (KF & KL & _).
          destruct H2 as [<-|[<-|H2]]; [exact I|apply lab_ok; auto|]. rewrite Forall_forall in KL. auto. }
  assert (HDL : dl p = labname 0 :: dl code ++ exitpoint :: dl (chs (g_chunks g))).
  { rewrite <- nodbg_dl, HM. unfold main_lines. change (dl (L_count ?n :: ?q)) with (dl q). rewrite dl_app, (proj1 (plain_strs _)). cbn [app]. change (dl (L_blank :: ?q)) with (dl q).
    rewrite dl_app, plain_defs. cbn [app]. change (dl (ins I_NOP :: ?q)) with (dl q). change (dl (L_blank :: ?q)) with (dl q). change (dl (lab 0 :: ?q)) with (labname 0 :: dl q).
    f_equal. rewrite <- app_assoc, dl_app. f_equal. }
  assert (HUL : incl (ul p) (dl p)).
  { assert (HU : incl (ul p) (dl (chs (g_chunks g)) ++ ul code ++ ul (chs (g_chunks g)))).
    { rewrite <- nodbg_ul, HM. unfold main_lines. change (ul (L_count ?n :: ?q)) with (ul q). rewrite ul_app, (proj2 (plain_strs _)). cbn [app]. change (ul (L_blank :: ?q)) with (ul q).
      rewrite ul_app. change (ul (ins I_NOP :: ?q)) with (ul q). change (ul (L_blank :: ?q)) with (ul q). change (ul (lab 0 :: ?q)) with (ul q). rewrite <- app_assoc, ul_app.
      change (ul ([L_blank; L_label exitpoint None; ins I_DONE] ++ ?q)) with (ul q). intros x Hx. rewrite !in_app_iff in *. destruct Hx as [Hx|Hx]; [|tauto]. left. eapply gdefs_in; eauto. }
    intros x Hx. apply HU in Hx. rewrite HDL. rewrite !in_app_iff in Hx. right. apply in_or_app.
    destruct Hx as [Hx|Hx]; [right; right; auto|]. destruct (G4 x) as (_ & G5 & _). apply G5 in Hx. unfold Dc, cnt in Hx.
    destruct (in_dec (list_eq_dec Z.eq_dec) x (dl code)) as [HI|HI]; auto. right; right. apply (count_occ_not_In (list_eq_dec Z.eq_dec)) in HI. rewrite HI in Hx.
    apply (count_occ_In (list_eq_dec Z.eq_dec)). lia. }
  assert (HND : NoDup (dl p)).
  { rewrite HDL. apply (NoDup_count_occ (list_eq_dec Z.eq_dec)). intro x. destruct (G4 x) as (G5 & _ & G6). unfold Dc, cnt in *.
    change (labname 0 :: dl code ++ exitpoint :: dl (chs (g_chunks g))) with ([labname 0] ++ dl code ++ [exitpoint] ++ dl (chs (g_chunks g))). rewrite !count_occ_app. cbn [count_occ].
    unfold str in *. match type of G5 with (?a + ?b <= 1)%nat => set (m1 := a) in *; set (m2 := b) in * end. clearbody m1 m2.
    assert (N0 : labname 0 = x -> (m1 + m2 < 1)%nat).
    { intro E0. destruct (le_lt_dec 1 (m1 + m2)) as [H|H]; auto. destruct (G6 H) as (n & E & Hn). rewrite <- E0 in E. apply labname_inj in E; lia. }
    assert (N1 : exitpoint = x -> (m1 + m2 < 1)%nat).
    { intro E0. destruct (le_lt_dec 1 (m1 + m2)) as [H|H]; auto. destruct (G6 H) as (n & E & Hn). rewrite <- E0 in E. apply exit_not_lab in E. destruct E. }
    destruct (list_eq_dec Z.eq_dec (labname 0) x) as [E0|E0]; destruct (list_eq_dec Z.eq_dec exitpoint x) as [E1|E1]; try specialize (N0 E0); try specialize (N1 E1); cbn [Nat.add]; try lia.
    rewrite <- E0 in E1. destruct (exit_not_lab _ E1). }
  split; [apply nodbg_lines; auto|]. split; [|split; [auto|split; [auto|exact HLN]]].
  assert (HQ : exists q o a, map nodbg p = q ++ [L_instr o a None]).
  { rewrite HM. apply ends_cons, ends_app, ends_cons, ends_app, ends_cons. destruct (chunks_last _ K4) as [E|(q & E)].
    - rewrite E. unfold main_lines. cbn [chs map concat]. rewrite app_nil_r. do 2 apply ends_cons. apply ends_app. do 2 apply ends_cons. exists [], I_DONE, P_none. reflexivity.
    - apply ends_app. rewrite E. exists q, I_RET0, P_none. reflexivity. }
  destruct HQ as (q & o & a & E). destruct p as [|x p _] using rev_ind; [destruct q; discriminate|]. rewrite map_app in E. apply app_inj_tail in E as [_ E].
  destruct x; try discriminate. eapply labels_from; eauto.
Qed.
End Lines.
