(** Properties of the assembler and the disassembler (C44, C45). *)
From Coq Require Import String.
From Verif Require Import Base ListLemmas Dict DictProofs PDict PDictKeys Strman Obj Instr Vm VmSpec VmProofs PropsVm Text TextProofs Asm AsmSpec AsmProofs.

Ltac Zify.zify_post_hook ::= idtac.

Lemma le32_value v : match le32 v with [a; b; c; d] => a + 256 * b + 65536 * c + 16777216 * d = wrap32 v | _ => False end.
Proof.
  unfold le32, wrap32.
  pose proof (Z.div_mod v 256 ltac:(lia)). pose proof (Z.div_mod (v / 256) 256 ltac:(lia)).
  pose proof (Z.div_mod (v / 65536) 256 ltac:(lia)). pose proof (Z.div_mod (v / 16777216) 256 ltac:(lia)).
  replace (v / 256 / 256) with (v / 65536) in * by (rewrite Z.div_div by lia; reflexivity).
  replace (v / 65536 / 256) with (v / 16777216) in * by (rewrite Z.div_div by lia; reflexivity).
  replace (v / 16777216 / 256) with (v / 4294967296) in * by (rewrite Z.div_div by lia; reflexivity).
  change (2 ^ 32) with 4294967296. rewrite Z.mod_eq by lia. lia.
Qed.
Lemma rd_at pre x post : rd (pre ++ x :: post) (zlen pre) = Ok x.
Proof.
  unfold rd. replace (0 <=? zlen pre) with true by (unfold zlen; lia). unfold zlen. rewrite Nat2Z.id.
  rewrite nth_error_app2, Nat.sub_diag by lia. reflexivity.
Qed.
Lemma rd_at1 pre x y post k : k = zlen pre + 1 -> rd (pre ++ x :: y :: post) k = Ok y.
Proof. intros ->. change (x :: y :: post) with ([x] ++ y :: post). rewrite app_assoc. replace (zlen pre + 1) with (zlen (pre ++ [x])) by (rewrite zlen_app; reflexivity). apply rd_at. Qed.
Lemma rd32_at pre x v post : rd32 (pre ++ x :: le32 v ++ post) (zlen pre + 1) = Ok (wrap32 v).
Proof.
  pose proof (le32_value v) as HV. destruct (le32 v) as [|a [|b [|c [|d [|]]]]]; try tauto. cbn [app]. unfold rd32.
  rewrite rd_at1 by lia. cbn [bind].
  replace (pre ++ x :: a :: b :: c :: d :: post) with ((pre ++ [x]) ++ a :: b :: c :: d :: post) at 1 by (rewrite <- app_assoc; auto).
  rewrite rd_at1 by (rewrite zlen_app; unfold zlen at 3; cbn [length]; lia). cbn [bind].
  replace (pre ++ x :: a :: b :: c :: d :: post) with ((pre ++ [x; a]) ++ b :: c :: d :: post) at 1 by (rewrite <- app_assoc; auto).
  rewrite rd_at1 by (rewrite zlen_app; unfold zlen at 3; cbn [length]; lia). cbn [bind].
  replace (pre ++ x :: a :: b :: c :: d :: post) with ((pre ++ [x; a; b]) ++ c :: d :: post) by (rewrite <- app_assoc; auto).
  rewrite rd_at1 by (rewrite zlen_app; unfold zlen at 3; cbn [length]; lia). cbn [bind]. rewrite HV. reflexivity.
Qed.
Lemma opcode_of_num o : opcode_of (opnum o) = Some o.
Proof. destruct o; reflexivity. Qed.
Lemma sign32_wrap v : sign32 (wrap32 v) = sign32 v.
Proof. unfold sign32, wrap32. rewrite Zmod_mod. reflexivity. Qed.

(** ** C44: the assembled code *)

(** The text of a program is assembled, without error, to the bytes of its lines one after the other,
    labels standing for the offset of what follows them; the debug information is recorded for the
    offset of its line. *)
Theorem C44_assembled_code :
  forall strtof p, lines_ok strtof p -> labels_ok p ->
  exists env, (forall name a, defined_at p name a -> env name = a) /\
    buzz_asm strtof (text p) = Ok (0, code_bytes strtof env p, debug_records 0 p).
Proof. intros strtof p HP HL. apply asm_ok; auto. Qed.
Print Assumptions C44_assembled_code.

(** The virtual machine fetches at the offset of an instruction that instruction, with its
    operand. *)
Theorem C44_vm_fetches_the_instruction :
  forall strtof p1 o a d p2 X (v : vm X), lines_ok strtof (p1 ++ L_instr o a d :: p2) -> labels_ok (p1 ++ L_instr o a d :: p2) ->
  v_pc v = address p1 -> v_state v = S_READY ->
  exists env code dbg,
    (forall name b, defined_at (p1 ++ L_instr o a d :: p2) name b -> env name = b) /\
    buzz_asm strtof (text (p1 ++ L_instr o a d :: p2)) = Ok (0, code, dbg) /\
    about_to (mem_of code) v o /\
    (has_arg o = true -> instr_arg (mem_of code) v = wrap32 (operand_value strtof env a)).
Proof.
  intros strtof p1 o a d p2 X v HP HL HV HR. destruct (asm_ok strtof _ HP HL) as (env & HE & E). exists env. eexists. eexists.
  split; [exact HE|]. split; [exact E|].
  apply Forall_app in HP as [HP1 HP2]. pose proof (code_len strtof env p1 HP1) as HLen.
  rewrite code_app. unfold code_bytes at 2 4. cbn [map concat line_bytes].
  assert (HM : forall l x, rd l x = Ok (mem_of l x) \/ rd l x = UB).
  { intros l x. unfold rd, mem_of. destruct (0 <=? x); auto. destruct (nth_error l (Z.to_nat x)) eqn:EN; auto. left. f_equal. symmetry. apply nth_error_nth; auto. }
  set (pre := code_bytes strtof env p1) in *. set (post := concat (map (line_bytes strtof env) p2)).
  split.
  - split; auto. rewrite HV, <- HLen. cbn [app]. pose proof (rd_at pre (opnum o) ((if has_arg o then le32 (operand_value strtof env a) else []) ++ post)) as R.
    destruct (HM (pre ++ opnum o :: (if has_arg o then le32 (operand_value strtof env a) else []) ++ post) (zlen pre)) as [G|G]; rewrite R in G; inversion G; auto.
  - intro HA. rewrite HA. cbn [app]. pose proof (rd32_at pre (opnum o) (operand_value strtof env a) post) as R.
    unfold instr_arg. rewrite HV, <- HLen. unfold rd32 in R.
    set (l := pre ++ opnum o :: le32 (operand_value strtof env a) ++ post) in *.
    replace (zlen pre + 1 + 1) with (zlen pre + 2) in R by lia. replace (zlen pre + 1 + 2) with (zlen pre + 3) in R by lia. replace (zlen pre + 1 + 3) with (zlen pre + 4) in R by lia.
    destruct (HM l (zlen pre + 1)) as [G|G]; rewrite G in R; cbn [bind] in R; [clear G|discriminate]. destruct (HM l (zlen pre + 2)) as [G|G]; rewrite G in R; cbn [bind] in R; [clear G|discriminate].
    destruct (HM l (zlen pre + 3)) as [G|G]; rewrite G in R; cbn [bind] in R; [clear G|discriminate]. destruct (HM l (zlen pre + 4)) as [G|G]; rewrite G in R; cbn [bind] in R; [clear G|discriminate].
    cbn [bind] in R. inversion R. reflexivity.
Qed.
Print Assumptions C44_vm_fetches_the_instruction.

(** ** Disassembling *)
Section Deasm.
Variable strtof : list Z -> option Z.
Variable fmt_f : Z -> list Z.
Variable dbg : Z -> option position.

Lemma deasm_body env p : Forall (line_ok strtof) p -> Forall is_code p ->
  forall pre fuel, (length (code_bytes strtof env p) < fuel)%nat ->
  deasm_code fmt_f dbg fuel (pre ++ code_bytes strtof env p) (zlen pre) = Ok (Some (listing strtof fmt_f env dbg (zlen pre) p)).
Proof.
  induction p as [|l p IH]; intros HP HC pre fuel HF.
  - destruct fuel; [lia|]. cbn [deasm_code]. unfold code_bytes. cbn [map concat]. rewrite app_nil_r.
    replace (zlen pre <? zlen pre) with false by lia. reflexivity.
  - inversion HP as [|? ? HL HP']; subst. inversion HC as [|? ? HIC HC']; subst.
    change (code_bytes strtof env (l :: p)) with (line_bytes strtof env l ++ code_bytes strtof env p) in *. rewrite app_length in HF.
    destruct l as [n|s|n d|o a d|]; try (cbn [is_code] in HIC; tauto); cbn [line_bytes app length] in *.
    + cbn [listing line_size app]. rewrite Z.add_0_r. apply IH; auto.
    + destruct fuel as [|f]; [lia|]. cbn [deasm_code].
      replace (zlen pre <? zlen (pre ++ opnum o :: (if has_arg o then le32 (operand_value strtof env a) else []) ++ code_bytes strtof env p)) with true
        by (symmetry; rewrite zlen_app; unfold zlen; cbn [length]; lia).
      rewrite rd_at. cbn [bind]. rewrite opcode_of_num. cbn [listing line_size].
      change (35 <=? opnum o) with (has_arg o). unfold operand_text.
      assert (HD : deasm_debug dbg (zlen pre) = dbg_text (dbg (zlen pre))) by (unfold deasm_debug, dbg_text; destruct (dbg (zlen pre)) as [[[? ?] ?]|]; reflexivity).
      destruct (has_arg o) eqn:EA.
      * match goal with |- context [if ?b then Ok None else _] => replace b with false end.
        2: { symmetry. rewrite zlen_app. unfold zlen. cbn [length app le32]. lia. }
        rewrite rd32_at. cbn [bind].
        specialize (IH HP' HC' (pre ++ opnum o :: le32 (operand_value strtof env a)) f). rewrite <- app_assoc in IH. cbn [app] in IH.
        replace (zlen (pre ++ opnum o :: le32 (operand_value strtof env a))) with (zlen pre + 5) in IH by (rewrite zlen_app; unfold zlen; cbn [length le32]; lia).
        rewrite IH by (cbn [length le32] in HF; lia). cbn [bind]. rewrite HD, sign32_wrap. f_equal. f_equal. change (opnum I_PUSHF) with 35.
        rewrite <- ?app_assoc. cbn [app]. rewrite <- ?app_assoc. destruct (opnum o =? 35); rewrite <- ?app_assoc; reflexivity.
      * specialize (IH HP' HC' (pre ++ [opnum o]) f). rewrite <- app_assoc in IH. cbn [app] in *.
        replace (zlen (pre ++ [opnum o])) with (zlen pre + 1) in IH by (rewrite zlen_app; unfold zlen; cbn [length]; lia).
        rewrite IH by (cbn [length] in HF; lia). cbn [bind]. rewrite HD. f_equal. f_equal. rewrite <- ?app_assoc. cbn [app]. rewrite <- ?app_assoc. reflexivity.
    + cbn [listing line_size app]. rewrite Z.add_0_r. apply IH; auto.
Qed.
Lemma rd_cstr_at s : Forall (fun c => c <> 0) s -> forall pre post fuel, (length s < fuel)%nat -> rd_cstr fuel (pre ++ s ++ 0 :: post) (zlen pre) = Ok s.
Proof.
  induction 1 as [|c s HC _ IH]; intros pre post fuel HF; destruct fuel as [|f]; try lia; cbn [rd_cstr app].
  - rewrite rd_at. reflexivity.
  - rewrite rd_at. cbn [bind]. replace (c =? 0) with false by lia. specialize (IH (pre ++ [c]) post f).
    rewrite <- app_assoc in IH. cbn [app] in IH. replace (zlen (pre ++ [c])) with (zlen pre + 1) in IH by (rewrite zlen_app; reflexivity). cbn [length] in HF. rewrite IH by lia. reflexivity.
Qed.
Definition strings_text (strs : list str) : list Z := concat (map (fun s => (39 :: s) ++ [NL]) strs).
Definition strings_bytes (strs : list str) : list Z := concat (map (fun s => s ++ [0]) strs).
Lemma deasm_strings_at strs : Forall (Forall (fun c => c <> 0)) strs ->
  forall pre post, deasm_strings (length strs) (pre ++ strings_bytes strs ++ post) (zlen pre) = Ok (Some (strings_text strs, zlen pre + zlen (strings_bytes strs))).
Proof.
  induction 1 as [|s strs HS _ IH]; intros pre post; cbn [deasm_strings length].
  - do 3 f_equal. change (zlen (strings_bytes [])) with 0. lia.
  - unfold strings_bytes, strings_text. cbn [map concat]. fold (strings_bytes strs). fold (strings_text strs).
    match goal with |- context [if ?b then _ else _] => replace b with true end.
    2: { symmetry. rewrite zlen_app. unfold zlen. rewrite !app_length. cbn [length]. lia. }
    rewrite <- !app_assoc. cbn [app]. rewrite rd_cstr_at.
    2: { exact HS. } 2: { rewrite !app_length. cbn [length]. lia. }
    cbn [bind]. specialize (IH (pre ++ s ++ [0]) post). rewrite <- !app_assoc in IH. cbn [app] in IH.
    assert (HZ : zlen (pre ++ s ++ [0]) = zlen pre + zlen s + 1) by (rewrite !zlen_app; change (zlen [0]) with 1; lia).
    rewrite HZ in IH. rewrite IH. cbn [bind]. f_equal. f_equal. f_equal. change (0 :: strings_bytes strs) with ([0] ++ strings_bytes strs).
    rewrite !zlen_app. change (zlen [0]) with 1. lia.
Qed.
End Deasm.

(** Disassembling what was assembled from a compiled program gives back its strings and the listing of its
    instructions, operands included. *)
Theorem C44_disassembly_lists_the_program :
  forall strtof fmt_f dbg strs body, lines_ok strtof (program strs body) -> labels_ok (program strs body) -> Forall is_code body ->
  exists env code recs,
    (forall name a, defined_at (program strs body) name a -> env name = a) /\
    buzz_asm strtof (text (program strs body)) = Ok (0, code, recs) /\
    buzz_deasm fmt_f dbg code =
      Ok (Some (text (L_count (zlen strs) :: map L_string strs) ++
                listing strtof fmt_f env dbg (address (L_count (zlen strs) :: map L_string strs)) body)).
Proof.
  intros strtof fmt_f dbg strs body HP HL HC. destruct (asm_ok strtof _ HP HL) as (env & HE & E). exists env. eexists. eexists.
  split; [exact HE|]. split; [exact E|]. clear E HE HL. unfold program in *.
  inversion HP as [|? ? HN HP']; subst. unfold line_ok in HN. apply Forall_app in HP' as [HS HB].
  assert (HS' : Forall (Forall (fun c => c <> 0)) strs).
  { apply Forall_forall. intros s Hs. rewrite Forall_forall in HS. apply Forall_forall. intros c Hc.
    specialize (HS (L_string s) (in_map _ _ _ Hs)). cbn [line_ok] in HS. rewrite Forall_forall in HS. apply (HS c Hc). }
  assert (HN2 : zlen strs / 256 < 256) by (apply Z.div_lt_upper_bound; lia).
  assert (HN3 : 0 <= zlen strs / 256) by (apply Z.div_pos; lia).
  change (code_bytes strtof env (L_count (zlen strs) :: map L_string strs ++ body)) with ([zlen strs mod 256; zlen strs / 256] ++ code_bytes strtof env (map L_string strs ++ body)).
  rewrite code_app.
  assert (HSB : code_bytes strtof env (map L_string strs) = strings_bytes strs).
  { unfold code_bytes, strings_bytes. rewrite map_map. reflexivity. }
  rewrite HSB. unfold buzz_deasm. cbn [app]. change (rd ?l 0) with (rd ([] ++ l) (zlen (@nil Z))). rewrite rd_at. cbn [bind].
  match goal with |- context [rd (?x :: ?y :: ?t) 1] => change (rd (x :: y :: t) 1) with (rd ([x] ++ y :: t) (zlen [x])) end. rewrite rd_at. cbn [bind].
  replace (zlen strs mod 256 + 256 * (zlen strs / 256)) with (zlen strs) by (pose proof (Z.div_mod (zlen strs) 256); lia).
  replace (Z.to_nat (zlen strs)) with (length strs) by (unfold zlen; lia). pose proof (deasm_strings_at strtof fmt_f dbg strs HS' [zlen strs mod 256; zlen strs / 256] (code_bytes strtof env body)) as HDS.
  cbn [app] in HDS. change (zlen [zlen strs mod 256; zlen strs / 256]) with 2 in HDS.
  match goal with |- bind ?x _ = _ => replace x with (Ok (Some (strings_text strs, 2 + zlen (strings_bytes strs)))) by (symmetry; exact HDS) end. cbn [bind].
  pose proof (deasm_body strtof fmt_f dbg env body HB HC ([zlen strs mod 256; zlen strs / 256] ++ strings_bytes strs)
    (S (length (zlen strs mod 256 :: zlen strs / 256 :: strings_bytes strs ++ code_bytes strtof env body)))) as HDB.
  rewrite zlen_app, <- app_assoc in HDB. change (zlen [zlen strs mod 256; zlen strs / 256]) with 2 in HDB. cbn [app] in HDB.
  rewrite HDB by (cbn [length]; rewrite app_length; lia). cbn [bind]. f_equal. f_equal.
  assert (HA : address (L_count (zlen strs) :: map L_string strs) = 2 + zlen (strings_bytes strs)).
  { rewrite <- HSB, (code_len strtof env (map L_string strs)) by auto. reflexivity. }
  rewrite HA. assert (HT : text (L_count (zlen strs) :: map L_string strs) = (33 :: print_u (zlen strs)) ++ [NL] ++ strings_text strs).
  { unfold text, strings_text. cbn [map concat line_text]. rewrite map_map. cbn [app]. rewrite <- app_assoc. reflexivity. }
  rewrite HT. cbn [app]. rewrite <- !app_assoc. reflexivity.
Qed.
Print Assumptions C44_disassembly_lists_the_program.

(** A program with strings, forward and backward jumps, a negative number, a label as number, and
    debug information. *)
Definition no_strtof (s : list Z) : option Z := if streq s (bs "1.5") then Some 1069547520 else None.
Definition demo_body : list aline :=
  [L_instr I_PUSHS (P_int 1) None; L_instr I_PUSHCN (P_label (bs "@__label_0")) None; L_instr I_GSTORE P_none None; L_instr I_NOP P_none None;
   L_blank; L_label (bs "@__label_0") None;
   L_instr I_PUSHI (P_int (-7)) (Some (3, 12, bs "my script.bzz")); L_instr I_JUMPZ (P_label (bs "@end")) (Some (3, 12, bs "my script.bzz"));
   L_instr I_PUSHF (P_float (bs "1.5")) None; L_instr I_POP P_none (Some (4, 0, bs "a.bzz"));
   L_instr I_JUMP (P_label (bs "@__label_0")) None; L_label (bs "@end") (Some (9, 1, [])); L_instr I_DONE P_none None].
Definition demo : list aline := program [bs "init"; bs "a b"] demo_body.
(** A test for [line_ok] (used for the examples). *)
Definition wordb (s : str) : bool := negb (match s with [] => true | _ => false end) && forallb (fun c => negb (isspace c) && negb (c =? BAR) && negb (c =? 0)) s.
Definition label_nameb (s : str) : bool := match s with c :: _ => (c =? 64) && wordb s | [] => false end.
Definition dbg_okb (d : option position) : bool :=
  match d with
  | None => true
  | Some (l, c, f) => (0 <=? l) && (l <? 2 ^ 63) && (0 <=? c) && (c <? 2 ^ 63) &&
      forallb (fun x => negb (x =? COMMA) && negb (x =? NL) && negb (x =? BAR) && negb (x =? 0)) f && match rev f with [] => true | x :: _ => negb (isspace x) end
  end.
Definition line_okb (strtof : list Z -> option Z) (l : aline) : bool :=
  match l with
  | L_count n => (0 <=? n) && (n <? 2 ^ 16)
  | L_string s => forallb (fun c => negb (c =? NL) && negb (c =? 0)) s
  | L_label n d => label_nameb n && dbg_okb d
  | L_instr o a d =>
      dbg_okb d &&
      match arg_kind o, a with
      | A_none, P_none => true
      | A_float, P_float t => wordb t && match strtof t with Some _ => true | None => false end
      | A_float, P_label n => label_nameb n && match strtof n with Some _ => false | None => true end
      | A_int, P_int z => int32_rangeb z
      | A_int, P_num t => wordb t && match strtoul t with Some _ => true | None => false end
      | A_int, P_label n | A_label, P_label n => label_nameb n
      | _, _ => false
      end
  | L_blank => true
  end.
Lemma wordb_ok s : wordb s = true -> word s.
Proof.
  unfold wordb, word. intro H. apply andb_prop in H as [H1 H2]. split; [destruct s; discriminate|]. apply Forall_forall. intros c Hc.
  rewrite forallb_forall in H2. specialize (H2 c Hc). destruct (isspace c); [discriminate|]. split; auto. lia.
Qed.
Lemma label_nameb_ok s : label_nameb s = true -> label_name s.
Proof. destruct s as [|c s]; [discriminate|]. cbn [label_nameb]. intro H. apply andb_prop in H as [H1 H2]. exists s. split; [f_equal; lia|]. apply wordb_ok; auto. Qed.
Lemma dbg_okb_ok d : dbg_okb d = true -> dbg_ok d.
Proof.
  destruct d as [[[l c] f]|]; [|cbn; auto]. cbn [dbg_okb dbg_ok]. intro H. rewrite !andb_true_iff in H. destruct H as (((((H1 & H2) & H3) & H4) & H5) & H6).
  split; [lia|]. split; [lia|]. split.
  - apply Forall_forall. intros x Hx. rewrite forallb_forall in H5. specialize (H5 x Hx). cbn in H5. lia.
  - intros g x ->. rewrite rev_app_distr in H6. cbn in H6. destruct (isspace x); auto.
Qed.
Lemma line_okb_ok strtof l : line_okb strtof l = true -> line_ok strtof l.
Proof.
  destruct l as [n|s|n d|o a d|]; cbn [line_okb line_ok]; intro H; auto.
  - lia.
  - apply Forall_forall. intros x Hx. rewrite forallb_forall in H. specialize (H x Hx). cbn in H. lia.
  - apply andb_prop in H as [H1 H2]. split; [apply label_nameb_ok|apply dbg_okb_ok]; auto.
  - apply andb_prop in H as [H1 H2]. split; [apply dbg_okb_ok; auto|]. destruct (arg_kind o), a; try discriminate; auto.
    + apply andb_prop in H2 as [H2 H3]. split; [apply label_nameb_ok; auto|]. destruct (strtof name); [discriminate|auto].
    + apply andb_prop in H2 as [H2 H3]. split; [apply wordb_ok; auto|]. destruct (strtof text); [eauto|discriminate].
    + unfold int32_rangeb in H2. unfold int32_range. lia.
    + apply label_nameb_ok; auto.
    + apply andb_prop in H2 as [H2 H3]. split; [apply wordb_ok; auto|]. destruct (strtoul text); [eauto|discriminate].
    + apply label_nameb_ok; auto.
Qed.
Lemma lines_okb_ok strtof p : forallb (line_okb strtof) p = true -> lines_ok strtof p.
Proof. intro H. apply Forall_forall. intros l Hl. rewrite forallb_forall in H. apply line_okb_ok. auto. Qed.
Lemma demo_ok : lines_ok no_strtof demo.
Proof. apply lines_okb_ok. vm_compute. reflexivity. Qed.
Fixpoint label_list (a : Z) (p : list aline) : list (str * Z) :=
  match p with
  | [] => []
  | l :: t => match l with L_label n _ => [(n, a)] | _ => [] end ++ label_list (a + line_size l) t
  end.
Lemma label_list_in p : forall a n x, In (n, x) (label_list a p) <-> exists y, defined_at p n y /\ x = a + y.
Proof.
  induction p as [|l p IH]; intros a n x; cbn [label_list].
  - split; [intros []|]. intros (y & ([|? ?] & d & p2 & E & _) & _); discriminate.
  - rewrite in_app_iff, IH. split.
    + intros [H|(y & (p1 & d & p2 & -> & ->) & ->)].
      * destruct l as [| |n0 d| |]; try (destruct H; fail). destruct H as [H|[]]. inversion H; subst. exists 0. split; [|lia]. exists [], d, p. auto.
      * exists (line_size l + address p1). split; [|lia]. exists (l :: p1), d, p2. auto.
    + intros (y & ([|l0 p1] & d & p2 & E & ->) & ->); inversion E; subst.
      * left. left. cbn. f_equal. lia.
      * right. exists (address p1). split; [exists p1, d, p2; auto|]. cbn [address]. lia.
Qed.
Definition uses_list (p : list aline) : list str := flat_map (fun l => match l with L_instr _ (P_label n) _ => [n] | _ => [] end) p.
Definition labels_okb (p : list aline) : bool :=
  forallb (fun n => existsb (fun e => str_eqb (fst e) n && (snd e <? address p)) (label_list 0 p)) (uses_list p) &&
  forallb (fun e => forallb (fun f => negb (str_eqb (fst e) (fst f)) || (snd e =? snd f)) (label_list 0 p)) (label_list 0 p).
Lemma labels_okb_ok p : labels_okb p = true -> labels_ok p.
Proof.
  intro H. apply andb_prop in H as [H1 H2]. rewrite forallb_forall in H1, H2. split.
  - intros n (o & d & HIn). assert (E : existsb (fun e => str_eqb (fst e) n && (snd e <? address p)) (label_list 0 p) = true).
    { apply (H1 n). unfold uses_list. apply in_flat_map. eexists. split; [exact HIn|]. left. auto. }
    apply existsb_exists in E as ([m x] & HM & HE). cbn [fst snd] in HE. apply andb_prop in HE as [HE1 HE2]. apply str_eqb_eq in HE1. subst m.
      apply label_list_in in HM as (y & HD & ->). exists y. split; auto. lia.
  - intros n a b HA HB. assert (HA' : In (n, a) (label_list 0 p)) by (apply label_list_in; exists a; auto).
    assert (HB' : In (n, b) (label_list 0 p)) by (apply label_list_in; exists b; auto).
    specialize (H2 _ HA'). rewrite forallb_forall in H2. specialize (H2 _ HB'). cbn [fst snd] in H2.
    rewrite (proj2 (str_eqb_eq n n)) in H2 by auto. cbn in H2. lia.
Qed.
Lemma demo_labels : labels_ok demo.
Proof. apply labels_okb_ok. vm_compute. reflexivity. Qed.
Example C44_a_program :
  lines_ok no_strtof demo /\ labels_ok demo /\
  buzz_asm no_strtof (text demo) =
    Ok (0, [2; 0] ++ bs "init" ++ [0] ++ bs "a b" ++ [0] ++ [37; 1; 0; 0; 0; 38; 23; 0; 0; 0; 29; 0; 36; 249; 255; 255; 255; 45; 44; 0; 0; 0;
            35; 0; 0; 192; 63; 4; 44; 23; 0; 0; 0; 1], 
        [(23, 3, 12, bs "my script.bzz"); (28, 3, 12, bs "my script.bzz"); (38, 4, 0, bs "a.bzz"); (44, 9, 1, [])]).
Proof. split; [exact demo_ok|]. split; [exact demo_labels|]. vm_compute. reflexivity. Qed.

(** ** C45: labels *)

(** An operand that names a label holds the offset of the definition of the label, which is inside the
    code; a jump to it continues there. *)
Theorem C45_labels_resolve :
  forall strtof p1 o name d p2 a X (v : vm X),
  let p := p1 ++ L_instr o (P_label name) d :: p2 in
  lines_ok strtof p -> labels_ok p -> address p < 2 ^ 31 -> defined_at p name a ->
  v_pc v = address p1 -> v_state v = S_READY ->
  exists code dbg, buzz_asm strtof (text p) = Ok (0, code, dbg) /\
    zlen code = address p /\ 0 <= a < zlen code /\
    sign32 (instr_arg (mem_of code) v) = a /\
    (o = I_JUMP -> address p2 > 0 -> forall flist powf,
       exists v', vm_step flist powf (mem_of code) (zlen code) v = Ok v' /\
         v_pc v' = a /\ v_state v' = S_READY /\ v_stacks v' = v_stacks v).
Proof.
  intros strtof p1 o name d p2 a X v p HP HL HB HD HV HR.
  destruct (C44_vm_fetches_the_instruction strtof p1 o (P_label name) d p2 X v HP HL HV HR) as (env & code & dbg & HE & E & HA & HI).
  fold p in HE, E. exists code, dbg. split; [exact E|].
  assert (HZ : zlen code = address p).
  { destruct (asm_ok strtof p HP HL) as (env' & _ & E'). rewrite E in E'. inversion E'. apply code_len. exact HP. }
  rewrite HZ. split; auto.
  assert (HA2 : 0 <= a < address p).
  { split; [destruct HD as (q1 & ? & ? & _ & ->); apply (address_nonneg strtof)|].
    destruct HL as [HL1 HL2]. assert (HUse : uses p name) by (exists o, d; apply in_elt). 
 destruct (HL1 name HUse) as (b & HDb & Hb). rewrite (HL2 _ _ _ HD HDb). auto. }
  split; auto.
  assert (HS : sign32 (instr_arg (mem_of code) v) = a).
  { rewrite HI. 2: { apply (labelled_has_arg strtof _ name d). apply Forall_app in HP as [_ HP]. inversion HP; auto. }
    rewrite sign32_wrap. cbn [operand_value]. rewrite (HE _ _ HD). unfold sign32, wrap32. rewrite (Z.mod_small a (2 ^ 32)) by lia.
    replace (a <? 2 ^ 31) with true by lia. reflexivity. }
  split; auto. intros -> HA3 flist powf. rewrite (step_at flist powf _ _ v I_JUMP HA). cbn [exec].
  pose proof (address_nonneg strtof p1).
  assert (HPp : address p = address p1 + 5 + address p2) by (unfold p; rewrite address_app; cbn [address line_size]; change (has_arg I_JUMP) with true; cbn match; lia).
  unfold inc_pc, get_arg. cbn [v_pc set_pc set_oldpc].
  replace (pc_ok (address p) (v_pc v + 1)) with true by (unfold pc_ok; lia).
  replace (pc_ok (address p) (v_pc v + 1 + 4)) with true by (unfold pc_ok; lia).
  replace (Vm.word (mem_of code) (v_pc v + 1)) with (instr_arg (mem_of code) v)
    by (unfold Vm.word, instr_arg; replace (v_pc v + 1 + 1) with (v_pc v + 2) by lia; replace (v_pc v + 1 + 2) with (v_pc v + 3) by lia;
        replace (v_pc v + 1 + 3) with (v_pc v + 4) by lia; reflexivity).
  rewrite HS. unfold assert_pc. cbn [v_pc set_pc set_oldpc]. replace (pc_ok (address p) a) with true by (unfold pc_ok; lia).
  eexists. split; [reflexivity|]. cbn. rewrite HR. auto.
Qed.
Print Assumptions C45_labels_resolve.

Example C45_demo_jump :
  exists p1 p2, demo = p1 ++ L_instr I_JUMP (P_label (bs "@__label_0")) None :: p2 /\ address p1 = 39 /\ address p2 = 1 /\
    defined_at demo (bs "@__label_0") 23.
Proof.
  exists (firstn 13 demo), (skipn 14 demo). split; [vm_compute; reflexivity|]. split; [vm_compute; reflexivity|]. split; [vm_compute; reflexivity|].
  exists (firstn 8 demo), None, (skipn 9 demo). split; vm_compute; reflexivity.
Qed.

Lemma patch_len b pos l b' : patch b pos l = Ok b' -> zlen b' = zlen b.
Proof.
  unfold patch. destruct ((0 <=? pos) && (pos + zlen l <=? zlen b)) eqn:E; [|discriminate]. intro H. inversion H; subst. clear H.
  unfold zlen in *. rewrite !app_length, firstn_length, skipn_length. lia.
Qed.
Lemma labsubs_bad lp n E : forall buf ret, zlen buf = n -> ret = 0 \/ ret = 2 ->
  (forall e, In e E -> 0 <= fst e /\ fst e + 4 <= n) ->
  ret = 2 \/ (exists e, In e E /\ match lp_get lp (snd e) with None => True | Some a => n <= a end) ->
  exists b, labsubs_run lp E (buf, ret) = Ok (b, 2).
Proof.
  induction E as [|[pos name] E IH]; intros buf ret HN HR HE HB.
  - exists buf. cbn. destruct HB as [->|(e & [] & _)]. reflexivity.
  - cbn [labsubs_run labsub]. destruct HR as [-> | ->].
    2: { cbn [Z.eqb]. replace (2 =? 0) with false by reflexivity. cbn [bind]. apply IH; auto. intros e H. apply HE. right; auto. }
    rewrite Z.eqb_refl. cbn [snd fst]. destruct (lp_get lp name) as [a|] eqn:EG.
    2: { cbn [bind]. apply IH; auto. intros e H. apply HE. right; auto. }
    rewrite HN. destruct (n <=? a) eqn:EA.
    + cbn [bind]. apply IH; auto. intros e H. apply HE. right; auto.
    + destruct (HE (pos, name) (or_introl eq_refl)) as [P1 P2]. cbn [fst] in P1, P2.
      destruct (patch buf pos (le32 a)) as [b| | |] eqn:EP; unfold patch in EP; change (zlen (le32 a)) with 4 in EP;
        replace ((0 <=? pos) && (pos + 4 <=? zlen buf)) with true in EP by lia; try discriminate.
      cbn [bind]. apply IH; auto.
      * rewrite <- HN. apply (patch_len buf pos (le32 a)). unfold patch. change (zlen (le32 a)) with 4.
        replace ((0 <=? pos) && (pos + 4 <=? zlen buf)) with true by lia. exact EP.
      * intros e H. apply HE. right; auto.
      * right. destruct HB as [HB|(e & [<-|HIn] & HB)]; [discriminate| |eauto]. cbn [snd] in HB. rewrite EG in HB. lia.
Qed.

(** A label that is used but not defined, or defined only at the end of the code, where there is
    nothing to jump to, makes assembling fail. *)
Theorem C45_missing_label_reported :
  forall strtof p name, lines_ok strtof p -> uses p name ->
  (forall a, defined_at p name a -> a = address p) ->
  exists code dbg, buzz_asm strtof (text p) = Ok (2, code, dbg).
Proof.
  intros strtof p name HP HU HD. destruct (pass1_ok strtof p [] asm_new (inv_new strtof) (Forall_nil _) HP) as (st & E & I). cbn [app] in I.
  unfold buzz_asm. rewrite (lines_text strtof), E by auto. cbn [bind].
  destruct HU as (o & d & HIn). apply in_split in HIn as (p1 & p2 & EP).
  assert (HUA : uses_at p (address p1 + 1) name) by (exists p1, o, d, p2; auto).
  destruct (labsubs_bad (a_labpos st) (address p) (pentries (a_labsubs st)) (a_buf st) 0) as (b & EB).
  - apply (inv_size strtof p st I). exact HP.
  - auto.
  - intros [k n] HK. cbn [fst].
    assert (HK2 : uses_at p k n). { apply (i_ls _ _ _ I). apply (get_in _ _ _ good_u); [apply I|]. exists k. split; auto. apply Z.eqb_refl. }
    destruct HK2 as (q1 & o' & d' & q2 & -> & ->). pose proof (address_nonneg strtof q1). pose proof (address_nonneg strtof q2). split; [lia|].
    rewrite address_app. cbn [address line_size]. rewrite (labelled_has_arg strtof o' n d'); [lia|].
    apply Forall_app in HP as [_ HP]. inversion HP; auto.
  - right. pose proof (proj2 (i_ls _ _ _ I _ _) HUA) as G. apply (get_in _ _ _ good_u) in G as (k & HIn & _); [|apply I].
    exists (k, name). split; auto. cbn [snd]. destruct (lp_get (a_labpos st) name) as [a|] eqn:EG; auto.
    apply (i_lp1 _ _ _ I) in EG. rewrite (HD a EG). lia.
  - rewrite EB. cbn [bind]. eauto.
Qed.
Print Assumptions C45_missing_label_reported.
Example C45_missing_label :
  let p := [L_count 0; L_instr I_JUMP (P_label (bs "@a")) None; L_instr I_DONE P_none None] in
  lines_ok no_strtof p /\ uses p (bs "@a") /\ (forall a, defined_at p (bs "@a") a -> a = address p).
Proof.
  split; [apply lines_okb_ok; vm_compute; reflexivity|]. split.
  - exists I_JUMP, None. right. left. reflexivity.
  - intros a HD. exfalso. assert (H : In (bs "@a", 0 + a) (label_list 0 [L_count 0; L_instr I_JUMP (P_label (bs "@a")) None; L_instr I_DONE P_none None])) by (apply label_list_in; eauto).
    destruct H.
Qed.

(** A label defined twice is not reported: the program assembles without error, and the last definition
    is the one used. *)
Definition twice : list aline :=
  [L_count 0; L_label (bs "@a") None; L_instr I_NOP P_none None; L_instr I_JUMP (P_label (bs "@a")) None; L_label (bs "@a") None; L_instr I_DONE P_none None].
Theorem C45_duplicate_label_refuted :
  exists p, lines_ok no_strtof p /\ defined_at p (bs "@a") 2 /\ defined_at p (bs "@a") 8 /\
    buzz_asm no_strtof (text p) = Ok (0, [0; 0; 0; 44; 8; 0; 0; 0; 1], []).
Proof.
  exists twice. split; [apply lines_okb_ok; vm_compute; reflexivity|]. split; [|split].
  - exists [L_count 0], None, (skipn 2 twice). split; vm_compute; reflexivity.
  - exists (firstn 4 twice), None, (skipn 5 twice). split; vm_compute; reflexivity.
  - vm_compute. reflexivity.
Qed.
Print Assumptions C45_duplicate_label_refuted.

(** ** C66: the listing of the disassembler is not assembler input *)

(** The text the disassembler writes for a correct program is rejected when it is assembled: its code
    lines start with their offset. *)
Theorem C66_listing_reassembles_refuted :
  exists p code dbg listing, lines_ok no_strtof p /\ labels_ok p /\
    buzz_asm no_strtof (text p) = Ok (0, code, dbg) /\
    buzz_deasm (fun _ => bs "1.500000") (fun _ => None) code = Ok (Some listing) /\
    buzz_asm no_strtof listing = Ok (2, [], []).
Proof.
  eexists demo, _, _, _. split; [exact demo_ok|]. split; [exact demo_labels|].
  split; [vm_compute; reflexivity|]. split; [vm_compute; reflexivity|]. vm_compute. reflexivity.
Qed.
Print Assumptions C66_listing_reassembles_refuted.

(** ** C67: any bytes can be disassembled *)

(** After the strings, the disassembler stays inside the buffer whatever the bytes, and terminates. *)
Lemma rd_in buf i : 0 <= i < zlen buf -> exists b, rd buf i = Ok b.
Proof.
  intro H. unfold rd. replace (0 <=? i) with true by lia. destruct (nth_error buf (Z.to_nat i)) as [b|] eqn:E; [eauto|].
  apply nth_error_None in E. unfold zlen in H. lia.
Qed.
Lemma deasm_code_total fmt_f dbg buf : forall fuel i, 0 <= i <= zlen buf -> zlen buf - i < Z.of_nat fuel ->
  exists r, deasm_code fmt_f dbg fuel buf i = Ok r.
Proof.
  induction fuel as [|f IH]; intros i H0 HF; cbn [deasm_code].
  - destruct (i <? zlen buf) eqn:E; [lia|]. exfalso. lia.
  - destruct (i <? zlen buf) eqn:E; [|eauto]. destruct (rd_in buf i) as [b ->]; [lia|]. cbn [bind].
    destruct (opcode_of b) as [o|]; [|eauto]. destruct (35 <=? b).
    + destruct (zlen buf <=? i + 4) eqn:E4; [eauto|]. unfold rd32.
      destruct (rd_in buf (i + 1)) as [x1 ->]; [lia|]. cbn [bind]. destruct (rd_in buf (i + 1 + 1)) as [x2 ->]; [lia|]. cbn [bind].
      destruct (rd_in buf (i + 1 + 2)) as [x3 ->]; [lia|]. cbn [bind]. destruct (rd_in buf (i + 1 + 3)) as [x4 ->]; [lia|]. cbn [bind].
      destruct (IH (i + 5)) as [r ->]; [lia|lia|]. cbn [bind]. eauto.
    + destruct (IH (i + 1)) as [r ->]; [lia|lia|]. cbn [bind]. eauto.
Qed.

Theorem C67_any_code_disassembles_partial :
  forall fmt_f dbg lo hi strs rest, lo + 256 * hi = zlen strs -> Forall (Forall (fun c => c <> 0)) strs ->
  exists r, buzz_deasm fmt_f dbg (lo :: hi :: concat (map (fun s => s ++ [0]) strs) ++ rest) = Ok r.
Proof.
  intros fmt_f dbg lo hi strs rest HC HS. unfold buzz_deasm.
  change (rd ?l 0) with (rd ([] ++ l) (zlen (@nil Z))). rewrite rd_at. cbn [bind].
  match goal with |- context [rd (?x :: ?y :: ?t) 1] => change (rd (x :: y :: t) 1) with (rd ([x] ++ y :: t) (zlen [x])) end. rewrite rd_at. cbn [bind].
  rewrite HC. replace (Z.to_nat (zlen strs)) with (length strs) by (unfold zlen; lia).
  pose proof (deasm_strings_at (fun _ => None) fmt_f dbg strs HS [lo; hi] rest) as HD. change (zlen [lo; hi]) with 2 in HD. cbn [app] in HD.
  unfold strings_bytes in HD. 
  match goal with |- exists r, bind ?x _ = _ => replace x with (Ok (Some (strings_text strs, 2 + zlen (strings_bytes strs)))) by (symmetry; exact HD) end. cbn [bind].
  destruct (deasm_code_total fmt_f dbg (lo :: hi :: concat (map (fun s => s ++ [0]) strs) ++ rest)
    (S (length (lo :: hi :: concat (map (fun s => s ++ [0]) strs) ++ rest))) (2 + zlen (strings_bytes strs))) as [r E].
  - unfold strings_bytes, zlen. cbn [length]. rewrite app_length. lia.
  - unfold zlen. lia.
  - match goal with |- exists r0, bind ?x _ = _ => replace x with (@Ok (option (list Z)) r) by (symmetry; exact E) end. cbn [bind]. eauto.
Qed.
Print Assumptions C67_any_code_disassembles_partial.
Example C67_garbage : exists r, buzz_deasm (fun _ => []) (fun _ => None) [1; 0; 65; 0; 200; 37; 1] = Ok r.
Proof. exact (C67_any_code_disassembles_partial (fun _ => []) (fun _ => None) 1 0 [[65]] [200; 37; 1] eq_refl ltac:(repeat constructor; discriminate)). Qed.

(** A last string without its terminator is read past the end of the buffer. *)
Theorem C67_unterminated_string_refuted :
  exists buf, buzz_deasm (fun _ => []) (fun _ => None) buf = UB.
Proof. exists [1; 0; 65; 66]. reflexivity. Qed.
Print Assumptions C67_unterminated_string_refuted.

(** ** C68: any text can be given to the assembler *)
Definition safe (st : asm) : Prop :=
  a_size st <= a_cap st /\ PWf uintkeyhash Z.eqb (a_labsubs st) /\
  forall pos name, pget uintkeyhash intkeycmp (a_labsubs st) pos = Some name -> 0 <= pos /\ pos + 4 <= a_size st.
Lemma safe_dbg st i : safe st -> safe (asm_debug st i).
Proof.
  intro H. unfold asm_debug. destruct i as [[|c t]|]; auto. destruct (strsep [COMMA; NL] (Some (c :: t))) as [x r1].
  destruct (strsep [COMMA; NL] r1) as [y r2]. destruct (strsep [COMMA; NL] r2) as [z r3]. destruct z; auto.
Qed.
Lemma safe_write st n l : safe st -> zlen l = n -> exists st', bcode_write (bcode_resize st n) l = Ok st' /\ safe st'.
Proof.
  intros (H1 & H2 & H3) HL. destruct (write_ok (fun _ => None) st n l H1 HL) as (cap & E & HC). eexists. split; [exact E|].
  split; [|split]; cbn [a_buf a_cap a_labsubs]; auto.
  - unfold a_size in *. cbn [a_buf]. rewrite zlen_app. lia.
  - intros pos name G. apply H3 in G. unfold a_size in *. cbn [a_buf]. rewrite zlen_app. unfold zlen in *. lia.
Qed.
Lemma safe_label st name : safe st ->
  exists st', bcode_write (set_labsub (bcode_resize st 4) name) (le32 0) = Ok st' /\ safe st'.
Proof.
  intros (H1 & H2 & H3).
  assert (E : bcode_write (set_labsub (bcode_resize st 4) name) (le32 0) =
    bcode_write (bcode_resize (mkAsm (a_buf st) (a_cap st) (a_labpos st) (ls_set (a_labsubs st) (a_size st) name) (a_dbg st)) 4) (le32 0)) by reflexivity.
  rewrite E. destruct (write_ok (fun _ => None) (mkAsm (a_buf st) (a_cap st) (a_labpos st) (ls_set (a_labsubs st) (a_size st) name) (a_dbg st)) 4 (le32 0)) as (cap & E2 & HC); [exact H1|reflexivity|].
  rewrite E2. eexists. split; [reflexivity|]. unfold a_size in *. cbn [a_buf a_cap a_labpos a_labsubs a_dbg] in *. split; [|split]; cbn [a_buf a_cap a_labsubs a_size].
  - unfold a_size. cbn [a_buf]. rewrite zlen_app. change (zlen (le32 0)) with 4. lia.
  - apply (wf_set _ _ _ good_u). auto.
  - intros pos n. unfold ls_set. rewrite (get_set _ _ _ good_u) by auto. unfold a_size. cbn [a_buf]. rewrite zlen_app. change (zlen (le32 0)) with 4.
    destruct (zlen (a_buf st) =? pos) eqn:EP; intro G; [unfold zlen in *; lia|]. apply H3 in G. lia.
Qed.
Lemma safe_line strtof st raw : safe st -> drop_while isspace (cstr raw) <> [39] ->
  exists r, asm_line strtof st raw = Ok r /\ match r with inl st' => safe st' | inr e => e = 2 end.
Proof.
  intros HS HQ. unfold asm_line. destruct (drop_while isspace (cstr raw)) as [|c t]; [exists (inl st); auto|].
  destruct (c =? 35); [exists (inl st); auto|]. destruct (c =? 39) eqn:E39.
  { destruct t as [|y t]; [exfalso; apply HQ; f_equal; lia|].
    destruct (safe_write st (zlen (removelast (y :: t)) + 1) (removelast (y :: t) ++ [0]) HS) as (st' & E & HS'); [rewrite zlen_app; reflexivity|].
    rewrite E. exists (inl st'). auto. }
  destruct (c =? 33). { destruct (safe_write st 2 [wrap16 (strtol (tl (rtrim (c :: t)))) mod 256; wrap16 (strtol (tl (rtrim (c :: t)))) / 256] HS) as (st' & E & HS'); [reflexivity|].
    rewrite E. exists (inl st'). auto. }
  destruct (c =? 64).
  { unfold asm_label. destruct (strsep [BAR; NL] (Some (rtrim (c :: t)))) as [li r1]. destruct (strsep [BAR; NL] r1) as [di r2].
    eexists. split; [reflexivity|]. apply (safe_dbg st di) in HS. exact HS. }
  unfold asm_instr. destruct (strsep [BAR; NL] (Some (rtrim (c :: t)))) as [ii r1]. destruct (strsep [BAR; NL] r1) as [di r2].
  destruct (strsep [SP; NL; TAB] ii) as [ins r3]. destruct (strsep [SP; NL; TAB] r3) as [arg r4].
  destruct (find_op (arg_text ins)) as [o|]; [|exists (inr 2); auto].
  destruct (safe_write (asm_debug st di) 1 [opnum o] (safe_dbg _ _ HS)) as (st2 & E & HS2); [reflexivity|]. rewrite E. cbn [bind].
  assert (HA : forall conv, exists r, add_arg st2 arg conv = Ok r /\ match r with inl st' => safe st' | inr e => e = 2 end).
  { intro conv. unfold add_arg. destruct (missing arg); [exists (inr 2); auto|]. destruct (conv (arg_text arg)) as [w|].
    - destruct (safe_write st2 4 (le32 w) HS2) as (st' & E' & HS'); [reflexivity|]. rewrite E'. exists (inl st'). auto.
    - destruct (safe_label st2 (arg_text arg) HS2) as (st' & E' & HS'). rewrite E'. exists (inl st'). auto. }
  destruct (arg_kind o); auto; [exists (inl st2); auto|].
  unfold add_label_arg. destruct (missing arg); [exists (inr 2); auto|].
  destruct (safe_label st2 (arg_text arg) HS2) as (st' & E' & HS'). rewrite E'. exists (inl st'). auto.
Qed.
Lemma safe_pass1 strtof ls : Forall (fun l => drop_while isspace (cstr l) <> [39]) ls -> forall st, safe st ->
  exists r, asm_pass1 strtof st ls = Ok r /\ match r with inl st' => safe st' | inr e => e = 2 end.
Proof.
  induction 1 as [|l ls HL _ IH]; intros st HS; cbn [asm_pass1]; [exists (inl st); auto|].
  destruct (safe_line strtof st l HS HL) as (r & -> & HR). cbn [bind]. destruct r as [st1|e]; [apply IH; auto|]. exists (inr e). auto.
Qed.
Lemma labsubs_safe lp n E : forall buf ret, zlen buf = n -> ret = 0 \/ ret = 2 ->
  (forall e, In e E -> 0 <= fst e /\ fst e + 4 <= n) ->
  exists b r, labsubs_run lp E (buf, ret) = Ok (b, r) /\ (r = 0 \/ r = 2).
Proof.
  induction E as [|[pos name] E IH]; intros buf ret HN HR HE.
  - exists buf, ret. auto.
  - assert (HE' : forall e, In e E -> 0 <= fst e /\ fst e + 4 <= n) by (intros e H; apply HE; right; auto).
    cbn [labsubs_run labsub]. destruct (ret =? 0) eqn:E0; [|cbn [bind]; apply IH; auto].
    cbn [snd fst]. destruct (lp_get lp name) as [a|] eqn:EG; [|cbn [bind]; apply IH; auto].
    destruct (zlen buf <=? a) eqn:EA; [cbn [bind]; apply IH; auto|].
    destruct (HE (pos, name) (or_introl eq_refl)) as [P1 P2]. cbn [fst] in P1, P2.
    destruct (patch buf pos (le32 a)) as [b| | |] eqn:EP.
    { cbn [bind]. apply IH; auto. rewrite <- HN. apply (patch_len buf pos (le32 a)). auto. }
    all: exfalso; unfold patch in EP; change (zlen (le32 a)) with 4 in EP; replace ((0 <=? pos) && (pos + 4 <=? zlen buf)) with true in EP by lia; discriminate.
Qed.

(** Any text is either assembled or reported as wrong: nothing outside the buffer is written, and there
    are no other return values than 0 and 2.  Excluded: a line that consists of a quote and
    nothing more. *)
Theorem C68_any_text_partial :
  forall strtof file, Forall (fun l => drop_while isspace (cstr l) <> [39]) (lines file) ->
  exists ret code dbg, buzz_asm strtof file = Ok (ret, code, dbg) /\ (ret = 0 \/ ret = 2).
Proof.
  intros strtof file H. unfold buzz_asm.
  assert (HS : safe asm_new).
  { split; [|split].
    - unfold a_size, zlen. cbn. lia.
    - apply (wf_new _ _ _ good_u). lia.
    - intros pos name G. cbn [asm_new a_labsubs] in G. rewrite (get_new _ _ _ good_u) in G by lia. discriminate. }
  destruct (safe_pass1 strtof (lines file) H asm_new HS) as (r & -> & HR). cbn [bind]. destruct r as [st|e]; [|eauto 6].
  destruct HR as (H1 & H2 & H3). destruct (labsubs_safe (a_labpos st) (a_size st) (pentries (a_labsubs st)) (a_buf st) 0) as (b & r & -> & HR); auto.
  { intros [k n] HK. cbn [fst]. apply (H3 k n). apply (get_in _ _ _ good_u); auto. exists k. split; auto. apply Z.eqb_refl. }
  cbn [bind]. eauto 6.
Qed.
Print Assumptions C68_any_text_partial.
Example C68_garbage : Forall (fun l => drop_while isspace (cstr l) <> [39]) (lines (bs "jump" ++ [NL] ++ bs "pushi |,," ++ [NL] ++ bs "@ '")).
Proof. vm_compute. repeat constructor; discriminate. Qed.

(** Such a line, at the end of a file, makes the assembler write in front of its buffer. *)
Theorem C68_lone_quote_refuted : exists file, buzz_asm no_strtof file = UB.
Proof. exists (bs "!0" ++ [NL] ++ bs "'"). vm_compute. reflexivity. Qed.
Print Assumptions C68_lone_quote_refuted.

(** The disassembly of one instruction, for the debugger. *)
Theorem C44_single_instruction_listing :
  forall strtof fmt_f p1 o a d p2, lines_ok strtof (p1 ++ L_instr o a d :: p2) -> labels_ok (p1 ++ L_instr o a d :: p2) ->
  exists env code recs,
    (forall name b, defined_at (p1 ++ L_instr o a d :: p2) name b -> env name = b) /\
    buzz_asm strtof (text (p1 ++ L_instr o a d :: p2)) = Ok (0, code, recs) /\
    instruction_deasm fmt_f code (address p1) = Ok (Some (opname o ++ operand_text strtof fmt_f env o a)).
Proof.
  intros strtof fmt_f p1 o a d p2 HP HL. destruct (asm_ok strtof _ HP HL) as (env & HE & E). exists env. eexists. eexists.
  split; [exact HE|]. split; [exact E|]. rewrite code_app. apply Forall_app in HP as [HP1 _]. pose proof (code_len strtof env p1 HP1) as HLen. rewrite <- HLen.
  unfold code_bytes at 2. cbn [map concat line_bytes app]. unfold instruction_deasm. rewrite rd_at. cbn [bind]. rewrite opcode_of_num.
  change (35 <=? opnum o) with (has_arg o). unfold operand_text. destruct (has_arg o); [|rewrite app_nil_r; reflexivity].
  rewrite rd32_at. cbn [bind]. rewrite sign32_wrap. reflexivity.
Qed.
Print Assumptions C44_single_instruction_listing.
