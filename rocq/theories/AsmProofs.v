(** Proofs about the assembler. *)
From Verif Require Import Base ListLemmas Dict DictProofs PDict PDictKeys Strman Instr Text TextProofs Asm AsmSpec.

Ltac Zify.zify_post_hook ::= idtac.
Opaque print_u.

Definition ends_ok (t : list Z) : Prop := forall g x, t = g ++ [x] -> isspace x = false.

Lemma ends_plain t : Forall (fun c => isspace c = false) t -> ends_ok t.
Proof. intros H g x ->. apply Forall_app in H as [_ H]. inversion H; auto. Qed.
Lemma ends_app a b : b <> [] -> ends_ok b -> ends_ok (a ++ b).
Proof.
  intros HN H g x E. destruct (@exists_last _ b HN) as (b' & y & ->). rewrite app_assoc in E.
  apply app_inj_tail in E as [_ <-]. apply (H b' y). reflexivity.
Qed.
Lemma ends_tl c t : t <> [] -> ends_ok (c :: t) -> ends_ok t.
Proof. intros HN H g x ->. apply (H (c :: g) x). reflexivity. Qed.
Lemma rtrim_all_id t : ends_ok t -> rtrim_all t = t.
Proof.
  induction t as [|c t IH]; intro H; auto. cbn [rtrim_all]. destruct t as [|y t].
  - cbn [rtrim_all]. rewrite (H [] c) by reflexivity. reflexivity.
  - rewrite IH by (apply (ends_tl c); [discriminate|auto]). reflexivity.
Qed.
Lemma rtrim_all_nl t : rtrim_all (t ++ [NL]) = rtrim_all t.
Proof. induction t as [|c t IH]; auto. cbn [app rtrim_all]. rewrite IH. reflexivity. Qed.
Lemma rtrim_line c t : ends_ok (c :: t) -> rtrim (c :: t ++ [NL]) = c :: t.
Proof.
  intro H. unfold rtrim. rewrite rtrim_all_nl, rtrim_all_id; auto. destruct t; [intros [|] ? ?; discriminate|]. apply (ends_tl c); auto. discriminate.
Qed.

(** ** Names of instructions *)
Definition opword (c : Z) : Prop := 48 <= c <= 122 /\ c <> 64.
Lemma opname_word o : Forall opword (opname o) /\ opname o <> [].
Proof. destruct o; (split; [|discriminate]); unfold opname, bs; cbn -[Z.le]; repeat constructor; unfold opword; lia. Qed.
Lemma opname_first o : exists c t, opname o = c :: t /\ isspace c = false /\ c <> 35 /\ c <> 39 /\ c <> 33 /\ c <> 64.
Proof.
  destruct (opname_word o) as [H HN]. destruct (opname o) as [|c t]; [congruence|]. exists c, t. inversion H; subst. unfold opword in *. unfold isspace.
  repeat split; try lia.
Qed.
Lemma find_opname o : find_op (opname o) = Some o.
Proof. destruct o; vm_compute; reflexivity. Qed.

(** ** Fields *)
Definition nosep (s : list Z) : Prop := Forall (fun c => isspace c = false /\ c <> BAR /\ c <> 0) s.
Lemma op_nosep o : nosep (opname o).
Proof. destruct o; unfold nosep, opname, bs, isspace, BAR; cbn; repeat constructor; lia. Qed.
Lemma plain_nosep s : Forall plain s -> nosep s.
Proof. intro H. eapply Forall_imp; eauto. unfold plain. tauto. Qed.
Lemma nosep_bar s : nosep s -> Forall (fun c => existsb (Z.eqb c) [BAR; NL] = false) s.
Proof. intro H. eapply Forall_imp; eauto. cbn. intros c (H1 & H2 & H3). unfold isspace in H1. unfold BAR, NL in *. lia. Qed.
Lemma nosep_sp s : nosep s -> Forall (fun c => existsb (Z.eqb c) [SP; NL; TAB] = false) s.
Proof. intro H. eapply Forall_imp; eauto. cbn. intros c (H1 & H2 & H3). unfold isspace in H1. unfold SP, NL, TAB in *. lia. Qed.

(** The words of operands. *)
Definition arg_word (a : operand) : option (list Z) :=
  match a with P_none => None | P_int z => Some (print_d z) | P_label n => Some n | P_float t => Some t | P_num t => Some t end.
Section WithF.
Variable strtof : list Z -> option Z.
Notation line_ok := (line_ok strtof).
Lemma arg_word_ok o a d : line_ok (L_instr o a d) ->
  match arg_word a with None => arg_txt a = [] | Some w => arg_txt a = SP :: w /\ word w end.
Proof.
  intros [_ H]. destruct a; cbn [arg_word arg_txt]; auto; split; auto; destruct (arg_kind o); try tauto.
  - split; [apply print_d_nonempty; auto|apply plain_nosep, print_d_plain; auto].
  - destruct H as [(t & -> & H) _]. auto.
  - destruct H as (t & -> & H). auto.
  - destruct H as (t & -> & H). auto.
Qed.

Definition dbg_field (d : option position) : option (list Z) :=
  match d with None => None | Some (l, c, f) => Some (print_u l ++ [COMMA] ++ print_u c ++ [COMMA] ++ f) end.
Lemma dbg_field_bar d : dbg_ok d -> match dbg_field d with None => True | Some t => Forall (fun c => existsb (Z.eqb c) [BAR; NL] = false) t end.
Proof.
  destruct d as [[[l c] f]|]; cbn [dbg_field]; auto. intros (H1 & H2 & H3 & H4).
  assert (HC : existsb (Z.eqb COMMA) [BAR; NL] = false) by reflexivity.
  repeat (apply Forall_app; split); auto; try (apply nosep_bar, plain_nosep, print_u_plain; lia).
  eapply Forall_imp; eauto. cbn. unfold COMMA, BAR, NL. intros x (A & B & C & D). lia.
Qed.
Definition rec_dbg (st : asm) (d : option position) : asm := match d with None => st | Some (l, c, f) => add_dbg st l c f end.
Lemma plain_comma s : Forall plain s -> Forall (fun c => existsb (Z.eqb c) [COMMA; NL] = false) s.
Proof. intro H. eapply Forall_imp; eauto. cbn. intros c (H1 & H2 & H3 & H4). unfold isspace in H1. unfold COMMA, NL in *. lia. Qed.
Lemma asm_debug_ok st d : dbg_ok d -> asm_debug st (dbg_field d) = rec_dbg st d.
Proof.
  destruct d as [[[l c] f]|]; auto. intros (H1 & H2 & H3 & H4). cbn [dbg_field rec_dbg].
  unfold asm_debug. destruct (print_u l ++ [COMMA] ++ print_u c ++ [COMMA] ++ f) as [|x0 t0] eqn:E.
  { destruct (print_u l); discriminate. } rewrite <- E. clear E.
  unfold strsep. cbn [app]. rewrite sep1_some; [|apply plain_comma, print_u_plain; lia|reflexivity].
  rewrite sep1_some; [|apply plain_comma, print_u_plain; lia|reflexivity].
  rewrite sep1_none. 2: { eapply Forall_imp; eauto. cbn. unfold COMMA, BAR, NL. intros x (A & B & C & D). lia. }
  rewrite !strtol_print by lia. unfold wrap64. rewrite !Z.mod_small by lia. reflexivity.
Qed.

Lemma instr_text st o a d : line_ok (L_instr o a d) ->
  exists arg, (match arg_word a with Some w => arg = Some w | None => True end) /\
  asm_instr strtof st (opname o ++ arg_txt a ++ dbg_text d) =
    (st2 <- bcode_write (bcode_resize (rec_dbg st d) 1) [opnum o] ;;
     match arg_kind o with
     | A_none => Ok (inl st2)
     | A_float => add_arg st2 arg strtof
     | A_int => add_arg st2 arg (fun s => match strtoul s with Some w => Some (wrap32 w) | None => None end)
     | A_label => add_label_arg st2 arg
     end).
Proof.
  intro H. pose proof (arg_word_ok o a d H) as HW. destruct H as [HD _].
  assert (HB : forall x, Forall (fun c => existsb (Z.eqb c) [BAR; NL] = false) x -> forall y, Forall (fun c => existsb (Z.eqb c) [BAR; NL] = false) y -> Forall (fun c => existsb (Z.eqb c) [BAR; NL] = false) (x ++ y)).
  { intros. apply Forall_app; auto. }
  pose proof (op_nosep o) as HO.
  assert (HA : Forall (fun c => existsb (Z.eqb c) [BAR; NL] = false) (arg_txt a)).
  { destruct (arg_word a) as [w|]; [destruct HW as [-> [_ HW]]|rewrite HW; constructor]. constructor; [reflexivity|]. apply nosep_bar. auto. }
  unfold asm_instr.
  assert (H1 : strsep [BAR; NL] (Some (opname o ++ arg_txt a ++ dbg_text d)) =
               (Some (opname o ++ arg_txt a ++ (match d with None => [] | _ => [TAB] end)), dbg_field d)).
  { unfold strsep. destruct d as [[[l c] f]|]; cbn [dbg_text dbg_field].
    - replace (opname o ++ arg_txt a ++ [TAB; BAR] ++ print_u l ++ [COMMA] ++ print_u c ++ [COMMA] ++ f)
        with ((opname o ++ arg_txt a ++ [TAB]) ++ BAR :: (print_u l ++ [COMMA] ++ print_u c ++ [COMMA] ++ f)) by (rewrite <- !app_assoc; reflexivity).
      rewrite sep1_some; auto. apply HB; [apply nosep_bar; auto|]. apply HB; auto.
    - rewrite sep1_none; auto. apply HB; [apply nosep_bar; auto|]. rewrite app_nil_r. auto. }
  rewrite H1.
  assert (H2 : exists r, strsep [BAR; NL] (dbg_field d) = (dbg_field d, r)).
  { pose proof (dbg_field_bar d HD) as HF. destruct (dbg_field d) as [t|]; cbn [strsep]; [rewrite sep1_none by auto|]; eauto. }
  destruct H2 as [r2 ->].
  assert (H3 : exists arg r3, (match arg_word a with Some w => arg = Some w | None => True end) /\
     (let '(instr, r2) := strsep [SP; NL; TAB] (Some (opname o ++ arg_txt a ++ match d with Some _ => [TAB] | None => [] end)) in
      let '(argstr, r3) := strsep [SP; NL; TAB] r2 in (instr, argstr, r3)) = (Some (opname o), arg, r3)).
  { unfold strsep. destruct (arg_word a) as [w|].
    - destruct HW as [-> [_ HW]]. cbn [app]. rewrite sep1_some; [|apply nosep_sp; auto|reflexivity].
      destruct d; [rewrite sep1_some; [|apply nosep_sp; auto|reflexivity]|rewrite app_nil_r, sep1_none by (apply nosep_sp; auto)]; eauto.
    - rewrite HW. cbn [app]. destruct d; [rewrite sep1_some; [|apply nosep_sp; auto|reflexivity]|rewrite app_nil_r, sep1_none by (apply nosep_sp; auto)]; cbn; eauto. }
  destruct H3 as (arg & r3 & HArg & H3).
  destruct (strsep [SP; NL; TAB] (Some (opname o ++ arg_txt a ++ match d with Some _ => [TAB] | None => [] end))) as [instr r4].
  destruct (strsep [SP; NL; TAB] r4) as [argstr r5]. inversion H3; subst instr argstr r5. exists arg. split; auto.
  cbn [arg_text]. rewrite asm_debug_ok, find_opname by auto. reflexivity.
Qed.

(** ** The state after each line *)
Definition uses_at (p : list aline) (pos : Z) (name : str) : Prop :=
  exists p1 o d p2, p = p1 ++ L_instr o (P_label name) d :: p2 /\ pos = address p1 + 1.
Record inv (p : list aline) (st : asm) : Prop := {
  i_buf : a_buf st = code_bytes strtof (fun _ => 0) p;
  i_cap : a_size st <= a_cap st;
  i_lpw : PWf strkeyhash str_eqb (a_labpos st);
  i_lp1 : forall name a, lp_get (a_labpos st) name = Some a -> defined_at p name a;
  i_lp2 : forall name a, defined_at p name a -> lp_get (a_labpos st) name <> None;
  i_lsw : PWf uintkeyhash Z.eqb (a_labsubs st);
  i_ls : forall pos name, pget uintkeyhash intkeycmp (a_labsubs st) pos = Some name <-> uses_at p pos name;
  i_dbg : a_dbg st = debug_records 0 p
}.
Lemma address_app p q : address (p ++ q) = address p + address q.
Proof. induction p as [|l p IH]; cbn [address app]; lia. Qed.
Lemma size_nonneg l : 0 <= line_size l.
Proof. destruct l; cbn [line_size]; try lia; [unfold zlen; lia|destruct (has_arg o); lia]. Qed.
Lemma address_nonneg p : 0 <= address p.
Proof. induction p as [|l p IH]; cbn [address]; [lia|]. pose proof (size_nonneg l). lia. Qed.
Lemma bytes_len env l : line_ok l -> zlen (line_bytes strtof env l) = line_size l.
Proof.
  destruct l; cbn [line_bytes line_size]; auto.
  - intros _. unfold zlen. rewrite app_length. cbn. lia.
  - intros _. unfold zlen. destruct (has_arg o); reflexivity.
Qed.
Lemma zlen_app {A} (a b : list A) : zlen (a ++ b) = zlen a + zlen b.
Proof. unfold zlen. rewrite app_length. lia. Qed.
Lemma code_len env p : Forall line_ok p -> zlen (code_bytes strtof env p) = address p.
Proof.
  unfold code_bytes. induction 1 as [|l p H _ IH]; auto. cbn [map concat address]. rewrite zlen_app, IH, bytes_len; auto.
Qed.
Lemma code_app env p q : code_bytes strtof env (p ++ q) = code_bytes strtof env p ++ code_bytes strtof env q.
Proof. unfold code_bytes. rewrite map_app, concat_app. reflexivity. Qed.
Lemma records_app p : forall a q, debug_records a (p ++ q) = debug_records a p ++ debug_records (a + address p) q.
Proof.
  induction p as [|l p IH]; intros a q; cbn [app debug_records address]; [rewrite Z.add_0_r; auto|].
  rewrite IH, app_assoc. f_equal. f_equal. lia.
Qed.

Lemma snoc_split {A} (p : list A) l p1 x p2 :
  p ++ [l] = p1 ++ x :: p2 -> (p2 = [] /\ p = p1 /\ l = x) \/ (exists q, p2 = q ++ [l] /\ p = p1 ++ x :: q).
Proof.
  destruct (rev p2) as [|y q] eqn:E.
  - apply (f_equal (@rev _)) in E. rewrite rev_involutive in E. subst p2. intro H. apply app_inj_tail in H as [-> ->]. auto.
  - apply (f_equal (@rev _)) in E. rewrite rev_involutive in E. cbn in E. subst p2. intro H.
    change (x :: rev q ++ [y]) with ((x :: rev q) ++ [y]) in H. rewrite app_assoc in H. apply app_inj_tail in H as [-> ->]. right. eauto.
Qed.
Lemma uses_snoc p l pos name :
  uses_at (p ++ [l]) pos name <-> uses_at p pos name \/ (exists o d, l = L_instr o (P_label name) d /\ pos = address p + 1).
Proof.
  split.
  - intros (p1 & o & d & p2 & E & HP). apply snoc_split in E as [(-> & -> & ->)|(q & -> & ->)]; [right; eauto|]. left. exists p1, o, d, q. auto.
  - intros [(p1 & o & d & p2 & -> & HP)|(o & d & -> & HP)].
    + exists p1, o, d, (p2 ++ [l]). rewrite <- app_assoc. auto.
    + exists p, o, d, []. auto.
Qed.
Lemma defined_snoc p l name a :
  defined_at (p ++ [l]) name a <-> defined_at p name a \/ (exists d, l = L_label name d /\ a = address p).
Proof.
  split.
  - intros (p1 & d & p2 & E & HP). apply snoc_split in E as [(-> & -> & ->)|(q & -> & ->)]; [right; eauto|]. left. exists p1, d, q. auto.
  - intros [(p1 & d & p2 & -> & HP)|(d & -> & HP)].
    + exists p1, d, (p2 ++ [l]). rewrite <- app_assoc. auto.
    + exists p, d, []. auto.
Qed.
Lemma uses_bound p pos name : uses_at p pos name -> 1 <= pos <= address p.
Proof.
  intros (p1 & o & d & p2 & -> & ->). rewrite address_app. cbn [address line_size].
  pose proof (address_nonneg p1). pose proof (address_nonneg p2). destruct (has_arg o); lia.
Qed.
Lemma write_ok st n l : a_size st <= a_cap st -> zlen l = n ->
  exists cap, bcode_write (bcode_resize st n) l = Ok (mkAsm (a_buf st ++ l) cap (a_labpos st) (a_labsubs st) (a_dbg st)) /\ a_size st + n <= cap.
Proof.
  intros H <-. unfold bcode_write, bcode_resize, a_size in *. cbn [a_buf a_cap a_labpos a_labsubs a_dbg].
  destruct (a_cap st <=? zlen (a_buf st) + zlen l) eqn:E;
    (match goal with |- context [if ?b then _ else _] => replace b with true by lia end); eexists; (split; [reflexivity|lia]).
Qed.
Lemma dbg_snoc p l st : a_dbg st = debug_records 0 p -> a_size st = address p ->
  match l with L_label _ d | L_instr _ _ d => a_dbg (rec_dbg st d) | _ => a_dbg st end = debug_records 0 (p ++ [l]).
Proof.
  intros H HS. rewrite records_app, Z.add_0_l. destruct l as [n|s|n d|o a d|]; cbn [debug_records]; rewrite ?app_nil_r; auto;
    destruct d as [[[li c] f]|]; cbn [rec_dbg add_dbg a_dbg app]; rewrite ?app_nil_r, ?H, ?HS; auto.
Qed.

Lemma nouse p l st st' :
  (forall o n d, l <> L_instr o (P_label n) d) -> (forall n d, l <> L_label n d) ->
  inv p st ->
  a_buf st' = a_buf st ++ line_bytes strtof (fun _ => 0) l -> a_size st' <= a_cap st' ->
  a_labpos st' = a_labpos st -> a_labsubs st' = a_labsubs st -> a_dbg st' = debug_records 0 (p ++ [l]) ->
  inv (p ++ [l]) st'.
Proof.
  intros HU HL I HB HC HP HS HD. destruct I. constructor; auto.
  - rewrite HB, i_buf0, code_app. unfold code_bytes at 3. cbn [map concat]. rewrite app_nil_r. auto.
  - rewrite HP; auto.
  - rewrite HP. intros name a H. apply defined_snoc. left. auto.
  - rewrite HP. intros name a H. apply defined_snoc in H as [H|(d & -> & _)]; [eauto|]. exfalso. eapply HL; eauto.
  - rewrite HS; auto.
  - rewrite HS. intros pos name. rewrite i_ls0, uses_snoc. split; auto. intros [H|(o & d & -> & _)]; auto. exfalso. eapply HU; eauto.
Qed.

Lemma arg_ok p st2 o a d (st : asm) cap w :
  inv p st -> a_size st = address p -> line_ok (L_instr o a d) -> has_arg o = true -> (forall n, a <> P_label n) ->
  st2 = mkAsm (a_buf st ++ [opnum o]) cap (a_labpos st) (a_labsubs st) (a_dbg (rec_dbg st d)) -> a_size st + 1 <= cap ->
  le32 w = le32 (operand_value strtof (fun _ => 0) a) ->
  exists st', go (bcode_write (bcode_resize st2 4) (le32 w)) = Ok (inl st') /\ inv (p ++ [L_instr o a d]) st'.
Proof.
  intros I HS HO HA HN -> HC HW.
  destruct (write_ok (mkAsm (a_buf st ++ [opnum o]) cap (a_labpos st) (a_labsubs st) (a_dbg (rec_dbg st d))) 4 (le32 w)) as (cap2 & E & HC2).
  { unfold a_size in *. cbn [a_buf a_cap]. rewrite zlen_app. unfold zlen at 2. cbn [length]. lia. } { reflexivity. }
  rewrite E. cbn [go bind a_buf a_labpos a_labsubs a_dbg]. eexists. split; [reflexivity|]. unfold a_size in *. cbn [a_buf] in *.
  rewrite zlen_app in HC2. unfold zlen in HC2 at 2. cbn [length] in HC2.
  apply (nouse p _ st); cbn [a_buf a_cap a_labpos a_labsubs a_dbg]; auto; try discriminate.
  - intros o0 n0 d0 E0. inversion E0; subst. eapply HN; eauto.
  - cbn [line_bytes]. rewrite HA, <- app_assoc, HW. reflexivity.
  - unfold a_size. cbn [a_buf]. rewrite !zlen_app. unfold zlen at 2 3. cbn. lia.
  - apply (dbg_snoc p (L_instr o a d) st); auto. apply I.
Qed.
Lemma label_arg_ok p st2 o name d (st : asm) cap :
  inv p st -> a_size st = address p -> has_arg o = true ->
  st2 = mkAsm (a_buf st ++ [opnum o]) cap (a_labpos st) (a_labsubs st) (a_dbg (rec_dbg st d)) -> a_size st + 1 <= cap ->
  exists st', go (bcode_write (set_labsub (bcode_resize st2 4) name) (le32 0)) = Ok (inl st') /\ inv (p ++ [L_instr o (P_label name) d]) st'.
Proof.
  intros I HS HA -> HC.
  assert (E : bcode_write (set_labsub (bcode_resize (mkAsm (a_buf st ++ [opnum o]) cap (a_labpos st) (a_labsubs st) (a_dbg (rec_dbg st d))) 4) name) (le32 0) =
              bcode_write (bcode_resize (mkAsm (a_buf st ++ [opnum o]) cap (a_labpos st) (ls_set (a_labsubs st) (a_size st + 1) name) (a_dbg (rec_dbg st d))) 4) (le32 0)).
  { unfold set_labsub, bcode_resize, a_size. cbn [a_buf a_cap a_labpos a_labsubs a_dbg]. rewrite zlen_app. reflexivity. }
  rewrite E. clear E.
  destruct (write_ok (mkAsm (a_buf st ++ [opnum o]) cap (a_labpos st) (ls_set (a_labsubs st) (a_size st + 1) name) (a_dbg (rec_dbg st d))) 4 (le32 0)) as (cap2 & E & HC2).
  { unfold a_size in *. cbn [a_buf a_cap]. rewrite zlen_app. unfold zlen at 2. cbn [length]. lia. } { reflexivity. }
  rewrite E. cbn [go bind a_buf a_labpos a_labsubs a_dbg]. eexists. split; [reflexivity|]. unfold a_size in HC2. cbn [a_buf] in HC2.
  rewrite zlen_app in HC2. unfold zlen in HC2 at 2. cbn [length] in HC2.
  destruct I. constructor; cbn [a_buf a_cap a_labpos a_labsubs a_dbg]; auto.
  - rewrite i_buf0, code_app, <- app_assoc. f_equal. unfold code_bytes. cbn [map concat line_bytes operand_value]. rewrite HA. reflexivity.
  - unfold a_size in *. cbn [a_buf]. rewrite !zlen_app. unfold zlen at 2 3. cbn. lia.
  - intros n a H. apply defined_snoc. left. auto.
  - intros n a H. apply defined_snoc in H as [H|(d0 & E0 & _)]; [eauto|discriminate].
  - apply (wf_set _ _ _ good_u). auto.
  - intros pos n. unfold ls_set. rewrite (get_set _ _ _ good_u) by auto. rewrite uses_snoc, HS. destruct (address p + 1 =? pos) eqn:EP.
    + split.
      * intro H. inversion H; subst. right. exists o, d. split; auto. lia.
      * intros [H|(o0 & d0 & E0 & _)]; [|congruence]. apply uses_bound in H. lia.
    + rewrite i_ls0. split; auto. intros [H|(o0 & d0 & _ & E0)]; auto. lia.
  - apply (dbg_snoc p (L_instr o (P_label name) d) st); auto.
Qed.

Lemma label_not_number n : label_name n -> strtoul n = None.
Proof. intros (t & -> & _). reflexivity. Qed.
Lemma le32_wrap a b : wrap32 a = wrap32 b -> le32 a = le32 b.
Proof.
  unfold wrap32, le32. intro H.
  assert (G : forall x, [x mod 256; x / 256 mod 256; x / 65536 mod 256; x / 16777216 mod 256] =
    [(x mod 2 ^ 32) mod 256; (x mod 2 ^ 32) / 256 mod 256; (x mod 2 ^ 32) / 65536 mod 256; (x mod 2 ^ 32) / 16777216 mod 256]).
  { intro x. pose proof (Z.div_mod x (2 ^ 32) ltac:(lia)) as HX. set (q := x / 2 ^ 32) in *. set (r := x mod 2 ^ 32) in *.
    rewrite HX. change (2 ^ 32) with 4294967296.
    replace (4294967296 * q + r) with (r + (q * 16777216) * 256) by lia. rewrite Z_mod_plus_full, Z.div_add by lia.
    replace (r / 256 + q * 16777216) with (r / 256 + (q * 65536) * 256) by lia. rewrite Z_mod_plus_full.
    replace (r + q * 16777216 * 256) with (r + (q * 65536) * 65536) at 1 by lia. rewrite Z.div_add by lia.
    replace (q * 65536) with (q * 256 * 256) at 1 by lia. rewrite Z_mod_plus_full.
    replace (r + q * 16777216 * 256) with (r + (q * 256) * 16777216) by lia. rewrite Z.div_add by lia. rewrite Z_mod_plus_full. reflexivity. }
  rewrite (G a), (G b), H. reflexivity.
Qed.
Lemma line_noline l : line_ok l -> exists s, line_text l = s ++ [NL] /\ Forall (fun c => c <> NL) s.
Proof.
  assert (HN : forall s, nosep s -> Forall (fun c => c <> NL) s).
  { intros s H. eapply Forall_imp; eauto. cbn. unfold isspace, NL. intros c (A & _). lia. }
  assert (HD : forall d, dbg_ok d -> Forall (fun c => c <> NL) (dbg_text d)).
  { intros [[[l0 c] f]|] H; [|constructor]. destruct H as (H1 & H2 & H3 & H4). cbn [dbg_text].
    repeat (apply Forall_app; split); repeat constructor; try discriminate; try (apply HN, plain_nosep, print_u_plain; lia).
    eapply Forall_imp; eauto. cbn. tauto. }
  destruct l as [n|s|n d|o a d|]; cbn [line_text]; intro H.
  - exists (33 :: print_u n). split; auto. constructor; [discriminate|]. apply HN, plain_nosep, print_u_plain. unfold AsmSpec.line_ok in H. lia.
  - exists (39 :: s). split; auto. constructor; [discriminate|]. eapply Forall_imp; eauto. cbn. tauto.
  - destruct H as [(t & -> & _ & HW) Hd]. exists ((64 :: t) ++ dbg_text d). split; [rewrite <- app_assoc; auto|]. apply Forall_app; split; auto.
  - pose proof (arg_word_ok o a d H) as HW. destruct H as [Hd _]. exists (TAB :: opname o ++ arg_txt a ++ dbg_text d).
    split; [cbn [app]; rewrite <- !app_assoc; auto|]. constructor; [discriminate|].
    repeat (apply Forall_app; split); auto. { apply HN, op_nosep. }
    destruct (arg_word a) as [w|]; [destruct HW as [-> [_ HW]]; constructor; [discriminate|auto]|rewrite HW; constructor].
  - exists []. split; auto.
Qed.
Lemma nozero l : line_ok l -> Forall (fun c => c <> 0) (line_text l).
Proof.
  assert (HN : forall s, nosep s -> Forall (fun c => c <> 0) s).
  { intros s H. eapply Forall_imp; eauto. cbn. tauto. }
  assert (HD : forall d, dbg_ok d -> Forall (fun c => c <> 0) (dbg_text d)).
  { intros [[[l0 c] f]|] H; [|constructor]. destruct H as (H1 & H2 & H3 & H4). cbn [dbg_text].
    repeat (apply Forall_app; split); repeat constructor; try discriminate; try (apply HN, plain_nosep, print_u_plain; lia).
    eapply Forall_imp; eauto. cbn. tauto. }
  assert (HL : Forall (fun c => c <> 0) [NL]) by (constructor; [discriminate|constructor]).
  destruct l as [n|s|n d|o a d|]; cbn [line_text]; intro H.
  - constructor; [discriminate|]. apply Forall_app; split; auto. apply HN, plain_nosep, print_u_plain. unfold AsmSpec.line_ok in H. lia.
  - constructor; [discriminate|]. apply Forall_app; split; auto. eapply Forall_imp; eauto. cbn. tauto.
  - destruct H as [(t & -> & _ & HW) Hd]. repeat (apply Forall_app; split); auto.
  - pose proof (arg_word_ok o a d H) as HW. destruct H as [Hd _]. constructor; [discriminate|].
    repeat (apply Forall_app; split); auto. { apply HN, op_nosep. }
    destruct (arg_word a) as [w|]; [destruct HW as [-> [_ HW]]; constructor; [discriminate|auto]|rewrite HW; constructor].
  - auto.
Qed.
Lemma dbg_ends d : dbg_ok d -> d <> None -> ends_ok (dbg_text d) /\ dbg_text d <> [].
Proof.
  destruct d as [[[l c] f]|]; [|congruence]. intros (H1 & H2 & H3 & H4) _. cbn [dbg_text]. split; [|discriminate].
  replace ([TAB; BAR] ++ print_u l ++ [COMMA] ++ print_u c ++ [COMMA] ++ f) with (([TAB; BAR] ++ print_u l ++ [COMMA] ++ print_u c) ++ [COMMA] ++ f) by (rewrite <- !app_assoc; auto).
  apply ends_app; [discriminate|]. destruct f as [|x f].
  - intros [|z g] y E; inversion E; auto. destruct g; discriminate.
  - apply ends_app; [discriminate|auto].
Qed.
Lemma nosep_ends s : nosep s -> ends_ok s.
Proof. intro H. apply ends_plain. eapply Forall_imp; eauto. cbn. tauto. Qed.

Lemma step_line p st l : inv p st -> a_size st = address p -> line_ok l ->
  exists st', asm_line strtof st (line_text l) = Ok (inl st') /\ inv (p ++ [l]) st'.
Proof.
  intros I HS HL. unfold asm_line. rewrite cstr_id by (apply nozero; auto). destruct l as [n|s|n d|o a d|]; cbn [line_text].
  - (* count *)
    rewrite drop_while_none by reflexivity. cbn [Z.eqb Pos.eqb]. unfold AsmSpec.line_ok in HL.
    assert (HP := print_u_plain n ltac:(lia)).
    rewrite rtrim_line by (apply nosep_ends; constructor; [unfold isspace, BAR; repeat split; lia|apply plain_nosep; auto]).
    cbn [tl]. rewrite strtol_print by lia. unfold wrap16. rewrite (Z.mod_small n (2 ^ 16)) by lia.
    destruct (write_ok st 2 [n mod 256; n / 256]) as (cap & E & HC); [apply I|reflexivity|]. rewrite E. cbn [go bind]. eexists. split; [reflexivity|].
    apply (nouse p _ st); cbn [a_buf a_cap a_labpos a_labsubs a_dbg]; auto; try discriminate.
    + unfold a_size in *. cbn [a_buf]. rewrite zlen_app. unfold zlen at 2. cbn. lia.
    + apply (dbg_snoc p (L_count n) st); auto. apply I.
  - (* string *)
    rewrite drop_while_none by reflexivity. cbn [Z.eqb Pos.eqb].
    destruct (s ++ [NL]) as [|y0 t0] eqn:E0; [destruct s; discriminate|]. rewrite <- E0. rewrite removelast_last. clear E0.
    destruct (write_ok st (zlen s + 1) (s ++ [0])) as (cap & E & HC); [apply I|rewrite zlen_app; reflexivity|]. rewrite E. cbn [go bind]. eexists. split; [reflexivity|].
    apply (nouse p _ st); cbn [a_buf a_cap a_labpos a_labsubs a_dbg]; auto; try discriminate.
    + unfold a_size in *. cbn [a_buf]. rewrite !zlen_app. unfold zlen at 3. cbn. lia.
    + apply (dbg_snoc p (L_string s) st); auto. apply I.
  - (* label *)
    destruct HL as [(t & -> & HW) Hd]. cbn [app]. rewrite drop_while_none by reflexivity. cbn [Z.eqb Pos.eqb].
    rewrite app_assoc. rewrite rtrim_line.
    2: { change (64 :: t ++ dbg_text d) with ((64 :: t) ++ dbg_text d). destruct d as [d|].
         - destruct (dbg_ends (Some d) Hd) as [A B]; [discriminate|]. apply ends_app; auto.
         - cbn [dbg_text]. rewrite app_nil_r. apply nosep_ends, HW. }
    unfold asm_label.
    assert (H1 : strsep [BAR; NL] (Some (64 :: t ++ dbg_text d)) = (Some (64 :: t ++ (match d with None => [] | _ => [TAB] end)), dbg_field d)).
    { unfold strsep. destruct d as [[[li c] f]|]; cbn [dbg_text dbg_field].
      - replace (64 :: t ++ [TAB; BAR] ++ print_u li ++ [COMMA] ++ print_u c ++ [COMMA] ++ f)
          with ((64 :: t ++ [TAB]) ++ BAR :: (print_u li ++ [COMMA] ++ print_u c ++ [COMMA] ++ f)) by (cbn [app]; rewrite <- !app_assoc; reflexivity).
        rewrite sep1_some; auto. change (64 :: t ++ [TAB]) with ((64 :: t) ++ [TAB]). apply Forall_app; split; [apply nosep_bar, HW|repeat constructor].
      - rewrite sep1_none; auto. rewrite app_nil_r. apply nosep_bar, HW. }
    rewrite H1.
    assert (H2 : exists r, strsep [BAR; NL] (dbg_field d) = (dbg_field d, r)).
    { pose proof (dbg_field_bar d Hd) as HF. destruct (dbg_field d) as [u|]; cbn [strsep]; [rewrite sep1_none by auto|]; eauto. }
    destruct H2 as [r2 ->]. rewrite asm_debug_ok by auto. cbn [arg_text].
    assert (H3 : rtrim (64 :: t ++ match d with None => [] | _ => [TAB] end) = 64 :: t).
    { assert (HE : ends_ok t). { destruct t; [intros [|] ? ?; discriminate|]. apply (ends_tl 64); [discriminate|]. apply nosep_ends, HW. }
      unfold rtrim. f_equal. destruct d; [|rewrite app_nil_r; apply rtrim_all_id; auto].
      assert (HT : forall u, rtrim_all (u ++ [TAB]) = rtrim_all u). { induction u as [|y u IHu]; auto. cbn [app rtrim_all]. rewrite IHu. reflexivity. }
      rewrite HT. apply rtrim_all_id; auto. }
    rewrite H3. eexists. split; [reflexivity|].
    assert (HR : forall A (f : asm -> A), (forall l c fn, f (add_dbg st l c fn) = f st) -> f (rec_dbg st d) = f st).
    { intros A f H. destruct d as [[[? ?] ?]|]; cbn [rec_dbg]; auto. }
    destruct I. constructor; cbn [set_labpos a_buf a_cap a_labpos a_labsubs a_dbg]; rewrite ?(HR _ a_buf), ?(HR _ a_cap), ?(HR _ a_labpos), ?(HR _ a_labsubs) by reflexivity.
    + rewrite i_buf0, code_app. unfold code_bytes at 3. cbn [map concat line_bytes]. rewrite !app_nil_r. auto.
    + unfold a_size in *. cbn [set_labpos a_buf]. rewrite ?(HR _ a_buf) by reflexivity. auto.
    + apply (wf_set _ _ _ good_str). auto.
    + intros name a. unfold lp_get, lp_set. rewrite (get_set _ _ _ good_str) by auto. destruct (str_eqb (64 :: t) name) eqn:E.
      * apply str_eqb_eq in E. subst name. intro H. inversion H; subst. apply defined_snoc. right. exists d. split; auto.
        unfold a_size. rewrite (HR _ a_buf) by reflexivity. exact HS.
      * intro H. apply defined_snoc. left. auto.
    + intros name a H. unfold lp_get, lp_set. rewrite (get_set _ _ _ good_str) by auto. destruct (str_eqb (64 :: t) name) eqn:E; [discriminate|].
      apply defined_snoc in H as [H|(d0 & E0 & _)]; [match goal with HH : forall name a, defined_at p name a -> _ |- _ => apply (HH _ _ H) end|]. inversion E0; subst. rewrite (proj2 (str_eqb_eq _ _)) in E; auto; discriminate.
    + auto.
    + intros pos name. rewrite i_ls0, uses_snoc. split; auto. intros [H|(o0 & d0 & E0 & _)]; auto. discriminate.
    + apply (dbg_snoc p (L_label (64 :: t) d) st); auto.
  - (* instruction *)
    cbn [drop_while]. replace (isspace TAB) with true by reflexivity.
    destruct (opname_first o) as (c & t & EO & C1 & C2 & C3 & C4 & C5).
    assert (HE : ends_ok (opname o ++ arg_txt a ++ dbg_text d)).
    { pose proof (arg_word_ok o a d HL) as HW. destruct d as [d|].
      - destruct (dbg_ends (Some d)) as [A B]; [apply HL|discriminate|]. apply ends_app; [destruct (arg_txt a); [|discriminate]; cbn; auto|]. apply ends_app; auto.
      - cbn [dbg_text]. rewrite app_nil_r. destruct (arg_word a) as [w|].
        + destruct HW as [-> [HN HW]]. change (SP :: w) with ([SP] ++ w). rewrite app_assoc. apply ends_app; auto. apply nosep_ends; auto.
        + rewrite HW, app_nil_r. apply nosep_ends, op_nosep. }
    replace (opname o ++ arg_txt a ++ dbg_text d ++ [NL]) with ((opname o ++ arg_txt a ++ dbg_text d) ++ [NL]) by (rewrite <- !app_assoc; auto).
    rewrite EO in *. cbn [app]. rewrite drop_while_none by auto.
    replace (c =? 35) with false by lia. replace (c =? 39) with false by lia. replace (c =? 33) with false by lia. replace (c =? 64) with false by lia.
    rewrite rtrim_line by exact HE. change (c :: t ++ arg_txt a ++ dbg_text d) with ((c :: t) ++ arg_txt a ++ dbg_text d). rewrite <- EO.
    destruct (instr_text st o a d HL) as (arg & HArg & ->).
    assert (HR : forall A (f : asm -> A), (forall l c fn, f (add_dbg st l c fn) = f st) -> f (rec_dbg st d) = f st).
    { intros A f H. destruct d as [[[? ?] ?]|]; cbn [rec_dbg]; auto. }
    destruct (write_ok (rec_dbg st d) 1 [opnum o]) as (cap & E & HC). { unfold a_size. rewrite (HR _ a_buf), (HR _ a_cap) by reflexivity. apply I. } { reflexivity. }
    unfold a_size in HC. rewrite E. cbn [bind]. rewrite (HR _ a_buf), (HR _ a_labpos), (HR _ a_labsubs) in * by reflexivity.
    assert (HK : has_arg o = match arg_kind o with A_none => false | _ => true end) by (destruct o; reflexivity).
    destruct HL as [Hd HL]. destruct (arg_kind o) eqn:EK.
    + destruct a; try tauto. eexists. split; [reflexivity|]. apply (nouse p _ st); cbn [a_buf a_cap a_labpos a_labsubs a_dbg]; auto; try discriminate.
      * cbn [line_bytes]. rewrite HK. reflexivity.
      * unfold a_size. cbn [a_buf]. rewrite zlen_app. unfold zlen at 2. cbn. lia.
      * apply (dbg_snoc p (L_instr o P_none d) st); auto. apply I.
    + destruct a as [| |name|ft|]; try tauto; cbn [arg_word] in HArg; subst arg; unfold add_arg.
      * destruct HL as [HN HL]. pose proof HN as (u & EU & HW). rewrite EU. cbn [missing arg_text]. rewrite <- EU. rewrite HL.
        eapply label_arg_ok; eauto.
      * destruct HL as [[HN HW] [w HF]]. assert (HM : missing (@Some (list Z) ft) = false) by (destruct ft; [congruence|reflexivity]). rewrite HM. cbn [arg_text]. rewrite HF.
        eapply arg_ok; eauto. { split; auto. rewrite EK. split; [split; auto|eauto]. } { discriminate. } { cbn [operand_value]. rewrite HF. reflexivity. }
    + destruct a as [|z|name| |nt]; try tauto; cbn [arg_word] in HArg; subst arg; unfold add_arg.
      * assert (HM : missing (Some (print_d z)) = false) by (pose proof (print_d_nonempty z HL); destruct (print_d z); [congruence|reflexivity]). rewrite HM. cbn [arg_text].
        destruct (strtoul_print z HL) as (w & -> & HW). eapply arg_ok; eauto. { split; auto. rewrite EK. auto. } { discriminate. }
        { cbn [operand_value]. apply le32_wrap. rewrite <- HW. unfold wrap32. apply Zmod_mod. }
      * pose proof HL as (u & EU & HW). rewrite EU. cbn [missing arg_text]. rewrite <- EU. rewrite label_not_number by auto. eapply label_arg_ok; eauto.
      * destruct HL as [[HN HW] [w HF]]. assert (HM : missing (@Some (list Z) nt) = false) by (destruct nt; [congruence|reflexivity]). rewrite HM. cbn [arg_text]. rewrite HF.
        eapply arg_ok; eauto. { split; auto. rewrite EK. split; [split; auto|eauto]. } { discriminate. } { cbn [operand_value]. rewrite HF. apply le32_wrap. unfold wrap32. apply Zmod_mod. }
    + destruct a as [| |name| |]; try tauto; cbn [arg_word] in HArg; subst arg; unfold add_label_arg.
      pose proof HL as (u & EU & HW). rewrite EU. cbn [missing arg_text]. rewrite <- EU. eapply label_arg_ok; eauto.
  - cbn. eexists. split; [reflexivity|]. apply (nouse p _ st); auto; try discriminate; [cbn; rewrite app_nil_r; auto|apply I|].
    apply (dbg_snoc p L_blank st); auto. apply I.
Qed.

Lemma inv_new : inv [] asm_new.
Proof.
  constructor; cbn [asm_new a_buf a_cap a_labpos a_labsubs a_dbg]; auto.
  - unfold a_size, zlen. cbn. lia.
  - apply (wf_new _ _ _ good_str). lia.
  - intros name a H. unfold lp_get in H. rewrite (get_new _ _ _ good_str) in H by lia. discriminate.
  - intros name a ([|x p1] & d & p2 & E & _); discriminate.
  - apply (wf_new _ _ _ good_u). lia.
  - intros pos name. rewrite (get_new _ _ _ good_u) by lia. split; [discriminate|]. intros ([|x p1] & o & d & p2 & E & _); discriminate.
Qed.
Lemma inv_size p st : inv p st -> Forall line_ok p -> a_size st = address p.
Proof. intros I H. unfold a_size. rewrite (i_buf _ _ I). apply code_len; auto. Qed.
Lemma pass1_ok q : forall p st, inv p st -> Forall line_ok p -> Forall line_ok q ->
  exists st', asm_pass1 strtof st (map line_text q) = Ok (inl st') /\ inv (p ++ q) st'.
Proof.
  induction q as [|l q IH]; intros p st I HP HQ.
  - exists st. rewrite app_nil_r. split; auto.
  - inversion HQ as [|? ? HL HQ']; subst. destruct (step_line p st l I (inv_size _ _ I HP) HL) as (st1 & E & I1).
    cbn [map asm_pass1]. rewrite E. cbn [bind]. destruct (IH (p ++ [l]) st1 I1) as (st' & E' & I'); auto.
    { apply Forall_app; auto. } exists st'. split; auto. rewrite <- app_assoc in I'. exact I'.
Qed.
Lemma lines_text p : Forall line_ok p -> lines (text p) = map line_text p.
Proof.
  intro H. unfold lines, text. apply lines_concat; [|lia]. intros l Hl. apply in_map_iff in Hl as (x & <- & Hx).
  apply line_noline. rewrite Forall_forall in H. auto.
Qed.

(** ** Second pass *)
(** The code when the label arguments at the positions [D] have been filled in. *)
Fixpoint part (D : Z -> bool) (env : str -> Z) (a : Z) (p : list aline) : list Z :=
  match p with
  | [] => []
  | l :: t =>
      (match l with
       | L_instr o (P_label n) d => line_bytes strtof (if D (a + 1) then env else (fun _ => 0)) l
       | _ => line_bytes strtof env l
       end) ++ part D env (a + line_size l) t
  end.
Lemma nolab_env e1 e2 l : (forall o n d, l <> L_instr o (P_label n) d) -> line_bytes strtof e1 l = line_bytes strtof e2 l.
Proof. intro H. destruct l as [n|s|n d|o a d|]; auto. destruct a; auto. exfalso. eapply H; eauto. Qed.
Lemma part_zero env p : forall a, part (fun _ => false) env a p = code_bytes strtof (fun _ => 0) p.
Proof.
  unfold code_bytes. induction p as [|l p IH]; intro a; auto. cbn [part map concat]. rewrite IH. f_equal.
  destruct l as [| | |o [| | | |] d|]; auto.
Qed.
Lemma part_all D env p : forall a, (forall pos n, uses_at p pos n -> D (a + pos) = true) -> part D env a p = code_bytes strtof env p.
Proof.
  unfold code_bytes. induction p as [|l p IH]; intros a H; auto. cbn [part map concat]. f_equal.
  - destruct l as [| | |o [| |n| |] d|]; auto. rewrite (H 1 n); auto. exists [], o, d, p. auto.
  - apply IH. intros pos n (p1 & o & d & p2 & -> & ->). replace (a + line_size l + (address p1 + 1)) with (a + (line_size l + address p1 + 1)) by lia.
    apply (H _ n). exists (l :: p1), o, d, p2. auto.
Qed.
Lemma part_app D env p q : forall a, part D env a (p ++ q) = part D env a p ++ part D env (a + address p) q.
Proof.
  induction p as [|l p IH]; intro a; cbn [app part address]; [rewrite Z.add_0_r; auto|].
  rewrite IH, <- app_assoc. do 2 f_equal. f_equal. lia.
Qed.
Lemma part_ext D D' env p : forall a, (forall pos n, uses_at p pos n -> D (a + pos) = D' (a + pos)) -> part D env a p = part D' env a p.
Proof.
  induction p as [|l p IH]; intros a H; auto. cbn [part]. f_equal.
  - destruct l as [| | |o [| |n| |] d|]; auto. rewrite (H 1 n); auto. exists [], o, d, p. auto.
  - apply IH. intros pos n (p1 & o & d & p2 & -> & ->). replace (a + line_size l + (address p1 + 1)) with (a + (line_size l + address p1 + 1)) by lia.
    apply (H _ n). exists (l :: p1), o, d, p2. auto.
Qed.
Lemma part_len D env p : Forall line_ok p -> forall a, zlen (part D env a p) = address p.
Proof.
  induction 1 as [|l p H _ IH]; intro a; auto. cbn [part address]. rewrite zlen_app, IH. f_equal.
  destruct l as [| | |o [| |n| |] d|]; apply bytes_len; auto.
Qed.
Lemma labelled_has_arg o n d : line_ok (L_instr o (P_label n) d) -> has_arg o = true.
Proof. intros [_ H]. destruct o; cbn in H; try tauto; reflexivity. Qed.

Lemma firstn_exact {A} (a b : list A) n : length a = n -> firstn n (a ++ b) = a.
Proof. intros <-. rewrite firstn_app, Nat.sub_diag, firstn_all. apply app_nil_r. Qed.
Lemma skipn_exact {A} (a b : list A) n : length a = n -> skipn n (a ++ b) = b.
Proof. intros <-. rewrite skipn_app, Nat.sub_diag, skipn_all. reflexivity. Qed.
Lemma patch_part D env p pos name :
  Forall line_ok p -> uses_at p pos name ->
  patch (part D env 0 p) pos (le32 (env name)) = Ok (part (fun x => (x =? pos) || D x) env 0 p).
Proof.
  intros HP (p1 & o & d & p2 & -> & ->). apply Forall_app in HP as [HP1 HP2]. inversion HP2 as [|? ? HL HP3]; subst.
  pose proof (labelled_has_arg _ _ _ HL) as HA. rewrite !part_app. cbn [part]. rewrite !Z.add_0_l.
  rewrite (part_ext D (fun x => (x =? address p1 + 1) || D x) env p1 0).
  2: { intros pos n HU. apply uses_bound in HU. replace (0 + pos =? address p1 + 1) with false by lia. reflexivity. }
  rewrite (part_ext D (fun x => (x =? address p1 + 1) || D x) env p2 (address p1 + line_size (L_instr o (P_label name) d))).
  2: { intros pos n HU. apply uses_bound in HU. cbn [line_size]. rewrite HA. replace (address p1 + 5 + pos =? address p1 + 1) with false by lia. reflexivity. }
  set (D' := fun x => (x =? address p1 + 1) || D x). rewrite Z.eqb_refl; cbn [orb].
  set (A := part D' env 0 p1). set (B := part D' env (address p1 + line_size (L_instr o (P_label name) d)) p2).
  assert (HLA : zlen A = address p1) by (apply part_len; auto).
  cbn [line_bytes]. rewrite HA. set (w := operand_value strtof (if D (address p1 + 1) then env else fun _ => 0) (P_label name)).
  change (operand_value strtof env (P_label name)) with (env name).
  unfold patch. rewrite <- HLA.
  match goal with |- context [if ?b then _ else _] => replace b with true end.
  2: { symmetry. rewrite !zlen_app. cbn [app]. unfold zlen. cbn [length app le32]. lia. }
  f_equal.
  change ((opnum o :: le32 w) ++ B) with ([opnum o] ++ le32 w ++ B). change ((opnum o :: le32 (env name)) ++ B) with ([opnum o] ++ le32 (env name) ++ B).
  rewrite !app_assoc. assert (HL1 : length (A ++ [opnum o]) = Z.to_nat (zlen A + 1)) by (rewrite app_length; unfold zlen; cbn; lia).
  f_equal.
  - f_equal. rewrite <- (app_assoc (A ++ [opnum o])). apply firstn_exact. auto.
  - replace (Z.to_nat (zlen A + 1 + zlen (le32 (env name)))) with (length ((A ++ [opnum o]) ++ le32 w)).
    2: { rewrite app_length, HL1. unfold zlen. cbn [length le32]. lia. }
    apply skipn_exact. reflexivity.
Qed.

Lemma labsubs_ok p st env :
  inv p st -> Forall line_ok p ->
  (forall name, uses p name -> exists a, lp_get (a_labpos st) name = Some a /\ env name = a /\ a < address p) ->
  forall E D, (forall e, In e E -> uses_at p (fst e) (snd e)) ->
  labsubs_run (a_labpos st) E (part D env 0 p, 0) = Ok (part (fun x => existsb (fun e => x =? fst e) E || D x) env 0 p, 0).
Proof.
  intros I HP HU. induction E as [|[pos name] E IH]; intros D HE; [reflexivity|].
  assert (H1 := HE (pos, name) (or_introl eq_refl)). cbn [fst snd] in H1.
  assert (HUse : uses p name). { destruct H1 as (p1 & o & d & p2 & -> & _). exists o, d. apply in_elt. }
  destruct (HU name HUse) as (a & G & <- & HA).
  cbn [labsubs_run labsub fst snd]. rewrite Z.eqb_refl, G. rewrite part_len by auto. replace (address p <=? env name) with false by lia.
  rewrite patch_part by auto. cbn [bind]. rewrite IH by (intros; apply HE; right; auto).
  f_equal. f_equal. apply part_ext. intros x n _. cbn [existsb fst]. destruct (0 + x =? pos), (existsb (fun e => 0 + x =? fst e) E), (D (0 + x)); reflexivity.
Qed.

Lemma asm_ok p : Forall line_ok p -> labels_ok p ->
  exists env, (forall name a, defined_at p name a -> env name = a) /\
    buzz_asm strtof (text p) = Ok (0, code_bytes strtof env p, debug_records 0 p).
Proof.
  intros HP [HL1 HL2]. destruct (pass1_ok p [] asm_new inv_new (Forall_nil _) HP) as (st & E & I). cbn [app] in I.
  set (env := fun name => match lp_get (a_labpos st) name with Some a => a | None => 0 end).
  assert (HEnv : forall name a, defined_at p name a -> lp_get (a_labpos st) name = Some a).
  { intros name a HD. destruct (lp_get (a_labpos st) name) as [b|] eqn:EG; [|exfalso; eapply (i_lp2 _ _ I); eauto].
    f_equal. apply (HL2 name); auto. apply (i_lp1 _ _ I). auto. }
  exists env. split. { intros name a HD. unfold env. rewrite (HEnv _ _ HD). reflexivity. }
  unfold buzz_asm. rewrite lines_text, E by auto. cbn [bind]. rewrite (i_buf _ _ I), <- (part_zero env p 0).
  rewrite (labsubs_ok p st env); auto.
  - cbn [bind]. rewrite (i_dbg _ _ I). do 3 f_equal. apply part_all. intros pos n HU. rewrite Z.add_0_l, orb_false_r.
    apply existsb_exists. pose proof (proj2 (i_ls _ _ I pos n) HU) as G. apply (get_in _ _ _ good_u) in G as (k & HIn & Hk); [|apply I].
    exists (k, n). split; auto.
  - intros name HU. destruct (HL1 name HU) as (a & HD & HA). exists a. split; [auto|]. split; auto. unfold env. rewrite (HEnv _ _ HD). reflexivity.
  - intros [k n] HIn. apply (i_ls _ _ I). apply (get_in _ _ _ good_u); [apply I|]. exists k. split; auto. cbn [fst]. lia.
Qed.
End WithF.
