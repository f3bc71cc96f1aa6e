(** The bytes of the code of Gen.v, loaded in a VM: where everything is, and the state the script starts in. *)
From Verif Require Import Base ListLemmas Float Dict PDict Strman Obj Instr Vm VmSpec VmProofs PropsVmArith PropsVmData Text Asm AsmSpec AsmProofs VmCode Load PropsLoad Source CompileSpec Gen GenExt PgBase PgSym PgFun PgScript GenOk GenStep GenSim GenChunks GenWords GcSpec.
Local Open Scope Z_scope. Local Open Scope list_scope.

Ltac Zify.zify_post_hook ::= idtac.

Lemma name_len o : 3 <= zlen (opname o) + (if has_arg o then 0 else 2) /\ (if has_arg o then 4 <= zlen (opname o) else True).
Proof. destruct o; vm_compute; split; try exact I; discriminate. Qed.
Lemma text_long p : address p <= zlen (text p).
Proof.
  unfold text. induction p as [|l p IH]; [unfold zlen; cbn; lia|]. cbn [address map concat]. rewrite zlen_app. enough (line_size l <= zlen (line_text l)) by lia.
  destruct l as [n|s|n d|o x d|]; cbn [line_size line_text]; rewrite ?zlen_cons, ?zlen_app.
  - change (zlen [NL]) with 1. pose proof (zlen_nonneg (print_u n)). lia.
  - change (zlen [NL]) with 1. pose proof (zlen_nonneg s). lia.
  - apply zlen_nonneg || (pose proof (zlen_nonneg n); pose proof (zlen_nonneg (dbg_text d)); pose proof (zlen_nonneg [NL]); lia).
  - pose proof (name_len o) as [H1 H2]. pose proof (zlen_nonneg (opname o)). pose proof (zlen_nonneg (arg_txt x)). pose proof (zlen_nonneg (dbg_text d)). change (zlen [NL]) with 1. destruct (has_arg o); lia.
  - unfold zlen. cbn. lia.
Qed.
Lemma nodbg_bytes strtof env p : code_bytes strtof env (map nodbg p) = code_bytes strtof env p.
Proof. unfold code_bytes. rewrite map_map. f_equal. apply map_ext. intros []; reflexivity. Qed.
Lemma nodbg_defined p x a : defined_at (map nodbg p) x a -> defined_at p x a.
Proof.
  intros (q1 & d & q2 & E & ->). apply map_eq_app in E as (p1 & p2 & -> & E1 & E2). destruct p2 as [|y p2]; [discriminate|]. cbn [map] in E2. injection E2 as Ey _.
  destruct y as [| |n d'| |]; try discriminate. injection Ey as -> _. exists p1, d', p2. split; auto. rewrite <- E1. apply nodbg_address.
Qed.

Section Place.
Variable strtof : list Z -> option Z.
Variable env : str -> Z.
Variable P : list aline.
Hypothesis HE : forall name a, defined_at P name a -> env name = a.
Notation buf := (code_bytes strtof env P).
Lemma place_code p1 q p2 : P = p1 ++ q ++ p2 -> code_at strtof env (byte buf) (address p1) q.
Proof.
  intros E. apply (code_at_start strtof env (byte buf) (code_bytes strtof env p1) q (code_bytes strtof env p2)).
  - symmetry. apply bytes_length.
  - rewrite <- !bytes_cat, <- E. reflexivity.
Qed.
Lemma place p1 q p2 : P = p1 ++ q ++ p2 -> 0 < address p2 -> at_ strtof env (byte buf) (zlen buf) (address p1) q.
Proof.
  intros E H. pose proof (address_pos p1). pose proof (place_code _ _ _ E). split; auto. split; [|split; [auto|]].
  - intros q1 nm d q2 Eq. apply HE. exists (p1 ++ q1), d, (q2 ++ p2). rewrite address_cat. split; auto. rewrite E, Eq, <- !app_assoc. reflexivity.
  - rewrite bytes_length, E, !address_cat. lia.
Qed.
End Place.

(** Which chunk starts where. *)
Lemma chs_cons c cs : chs (c :: cs) = chunk_lines c ++ chs cs. Proof. reflexivity. Qed.
Lemma chunk_addr c : address (chunk_lines c) = address (gc_code c). Proof. reflexivity. Qed.
Lemma same_chunk c : forall d x y c2 d2, c ++ x :: c2 = d ++ y :: d2 -> Forall (fun z => 0 < address (gc_code z)) (c ++ x :: c2) -> address (chs c) = address (chs d) -> x = y.
Proof.
  induction c as [|z c IH]; intros [|w d] x y c2 d2 E F A; cbn [app] in *; try (injection E as -> E); auto.
  - exfalso. inversion F; subst. rewrite chs_cons, address_cat, chunk_addr in A. pose proof (address_pos (chs d)). unfold chs in A at 1. cbn in A. lia.
  - exfalso. inversion F; subst. rewrite chs_cons, address_cat, chunk_addr in A. pose proof (address_pos (chs c)). unfold chs in A at 2. cbn in A. lia.
  - inversion F; subst. rewrite !chs_cons, !address_cat in A. eapply IH; eauto. lia.
Qed.

(** The functions at the start. *)
Lemma index_inj x y l p : index x l = Some p -> index y l = Some p -> x = y.
Proof. intros H1 H2. apply index_nth in H1, H2. congruence. Qed.
Lemma start_value env ref strs (cs : list gchunk) x p : (forall gc, In gc cs -> ref (fn_id (gc_fn gc)) = env (labname (gc_label gc))) -> index x strs = Some p ->
  (forall gc y, In gc cs -> gc_name gc = Some y -> In y strs) ->
  match find (fun d => same x (fst d)) (rev (flat_map nmd cs)) with Some (_, id) => OClos true (ref id) [ONil] | None => ONil end =
  match defined_fun env (flat_map (fun gc => match gc_name gc with
                      | Some x => match index x strs with Some p => [(p, labname (gc_label gc))] | None => [] end
                      | None => []
                      end) cs) p with Some o => o | None => ONil end.
Proof.
  intros HR HX. unfold defined_fun. induction cs as [|c cs IH] using rev_ind; intro HN; [reflexivity|].
  rewrite !flat_map_app, rev_app_distr, fold_left_app. specialize (IH (fun gc H => HR gc (in_or_app _ _ _ (or_introl H))) (fun gc y H => HN gc y (in_or_app _ _ _ (or_introl H)))).
  cbn [flat_map nmd app]. rewrite !app_nil_r. assert (HI : In c (cs ++ [c])) by (apply in_or_app; right; left; auto). specialize (HR c HI). specialize (HN c).
  destruct (gc_name c) as [y|] eqn:EY; [|unfold nmd at 1; rewrite EY; exact IH]. assert (HY : In y strs) by auto. apply index_in in HY as [q HQ]. rewrite HQ. unfold nmd at 1. rewrite EY. cbn [rev app find fst fold_left snd].
  destruct (same x y) eqn:ES.
  - unfold same in ES. destruct (list_eq_dec Z.eq_dec x y); [subst|discriminate]. rewrite HX in HQ. injection HQ as ->. rewrite Z.eqb_refl, HR. reflexivity.
  - replace (q =? p) with false; [exact IH|]. symmetry. apply Z.eqb_neq. intros ->. rewrite (index_inj _ _ _ _ HX HQ) in ES. unfold same in ES. destruct (list_eq_dec Z.eq_dec y y); congruence.
Qed.

Lemma pick (cs : list gchunk) gc : NoDup (map fn_id (map gc_fn cs)) -> In gc cs -> find (fun c => fn_id (gc_fn c) =? fn_id (gc_fn gc)) cs = Some gc.
Proof.
  induction cs as [|c cs IH]; intros N H; [destruct H|]. cbn [find map] in *. inversion N as [|? ? N1 N2]; subst. destruct H as [->|H]; [rewrite Z.eqb_refl; reflexivity|].
  destruct (Z.eqb_spec (fn_id (gc_fn c)) (fn_id (gc_fn gc))) as [E|E]; [|auto]. exfalso. apply N1. rewrite E. apply in_map, in_map. auto.
Qed.
Lemma names_in l gc y : In gc (g_chunks (snd (gen_script l))) -> gc_name gc = Some y -> Forall (fun d => In (fst d) (words l)) (flat_map nmd (g_chunks (snd (gen_script l)))) -> In y (words l).
Proof.
  intros HI HN HF. rewrite Forall_forall in HF. apply (HF (y, fn_id (gc_fn gc))). apply in_flat_map. exists gc. split; auto. unfold nmd. rewrite HN. left. auto.
Qed.
Lemma defined_words l : forall sc, Forall (fun d => In (fst d) (words_ss sc l)) (defined l).
Proof.
  induction l as [|s l IH]; intro sc; [constructor|]. rewrite defined_cons. cbn [words_ss]. apply Forall_app. split.
  - destruct s; cbn [def_of]; constructor; [|constructor]. apply in_or_app. left. cbn [words_s fst]. left. auto.
  - specialize (IH (after sc s)). rewrite Forall_forall in *. intros d Hd. apply in_or_app. right. auto.
Qed.

(** ** The script is run *)
(** What [does] (CompileSpec.v) says, with a condition on the states that are met on the way. *)
Definition does_path {X} flist powf code size (fine Q : vm X -> Prop) (sid : str -> Z) (ws : list str) (v : vm X) (n : nat) (o : out (sst X)) : Prop :=
  match o with
  | Done st => exists k v', path flist powf code size fine k v v' /\ v_state v' = S_DONE /\ v_error v' = E_NONE /\
      (forall x, In x ws -> global v' (sid x) = s_glob st x) /\ v_heap v' = s_heap st /\ v_stacks v' = [[]] /\ v_lsymts v' = [] /\
      v_str v' = s_str st /\ v_ext v' = s_ext st /\ Q v'
  | Fail e => exists k v', path flist powf code size fine k v v' /\ v_state v' = S_ERROR /\ v_error v' = e
  | Unspec => True
  | More => exists k v', (n <= k)%nat /\ path flist powf code size fine k v v' /\ v_state v' = S_READY
  end.
Lemma path_does X flist powf code size fine Q sid ws (v : vm X) n o : does_path flist powf code size fine Q sid ws v n o -> does flist powf code size sid ws v n o.
Proof.
  destruct o; cbn [does_path does]; auto.
  - intros (k & v' & [H _] & H1 & H2 & H3 & H4 & H5 & H6 & H7 & H8 & _). exists k, v'. auto 10.
  - intros (k & v' & [H _] & HR). eauto.
  - intros (k & v' & Hk & [H _] & HR). eauto.
Qed.

(** The VM is at the end of the script. *)
Definition ended {X} (code : Z -> Z) (size : Z) (sm_ok : strman -> Prop) (v : vm X) : Prop := code (v_pc v) = opnum I_DONE /\ 0 <= v_pc v < size /\ stored_globals (v_gsyms v) /\ sm_ok (v_str v).
Section Run.
Variable strtof : list Z -> option Z.
Variable l : stats.
Variable env : str -> Z.
Let g := snd (gen_script l).
Let P := gen_program l.
Let buf := code_bytes strtof env P.
Let chunks := g_chunks g.
Hypothesis HO : ok_script strtof l = true.
Hypothesis HE : forall name a, defined_at P name a -> env name = a.
Hypothesis HL : zlen (g_strs g) <= 65535.
Hypothesis HA : address P < 2 ^ 31.
Hypothesis HLines : lines_ok strtof P.
Hypothesis HCf : Forall (GenOk.cf strtof) chunks.
Hypothesis HID : NoDup (map fn_id (functions l)).

Lemma script_chunks : map gc_fn chunks = functions l /\ flat_map nmd chunks = defined l /\ Forall (good strtof (g_strs g) chunks) chunks.
Proof.
  apply andb_true_iff in HO as [HO' _]. destruct (gen_chunks strtof (g_strs g) chunks) as (_ & _ & _ & _ & _ & H). specialize (H l Top (mkG 1 [] []) HO' I).
  destruct H as [_ H]. destruct H as (cs & E1 & E2 & E3 & E4).
  - split; [exists []; rewrite app_nil_r; reflexivity|]. apply incl_refl.
  - cbn [g_chunks app] in E1. fold (gen_script l) in E1. fold g in E1. fold chunks in E1. subst cs. auto.
Qed.
Definition fref (id : Z) : Z := match find (fun c => fn_id (gc_fn c) =? id) chunks with Some c => env (labname (gc_label c)) | None => -1 end.
Lemma fref_ok gc : In gc chunks -> fref (fn_id (gc_fn gc)) = env (labname (gc_label gc)).
Proof. intro H. unfold fref. rewrite (pick chunks gc); auto. destruct script_chunks as (E & _). rewrite E. exact HID. Qed.

Let pre := L_count (zlen (g_strs g)) :: map L_string (g_strs g) ++ L_blank :: concat (map def_code (gdefs g)) ++ [ins I_NOP].
Lemma program_split : P = pre ++ main_lines (fst (gen_script l)) ++ chs chunks.
Proof. unfold P, gen_program, program, gen_body, pre. fold g. fold chunks. fold (chs chunks). cbn [app]. rewrite <- !app_assoc. cbn [app]. rewrite <- app_assoc. reflexivity. Qed.
Let main := fst (gen_script l).
Let before := pre ++ main_lines main.
Lemma chunk_place c1 gc c2 : chunks = c1 ++ gc :: c2 -> env (labname (gc_label gc)) = address before + address (chs c1) /\
  P = (before ++ chs c1 ++ [L_blank; lab (gc_label gc)]) ++ gc_code gc ++ chs c2.
Proof.
  intro E. assert (EP : P = (before ++ chs c1 ++ [L_blank; lab (gc_label gc)]) ++ gc_code gc ++ chs c2).
  { rewrite program_split, E, chs_app, chs_cons. unfold before, chunk_lines. rewrite <- !app_assoc. reflexivity. }
  split; auto. apply HE. exists (before ++ chs c1 ++ [L_blank]), None, (gc_code gc ++ chs c2). split.
  - rewrite EP, <- !app_assoc. reflexivity.
  - rewrite !address_cat. cbn [address line_size]. lia.
Qed.
Lemma chunk_pos gc : In gc chunks -> 0 < address (gc_code gc).
Proof. intro H. rewrite Forall_forall in HCf. destruct (HCf _ H) as (_ & _ & q & ->). rewrite address_cat. pose proof (address_pos q). change (address [ins I_RET0]) with 1. lia. Qed.
Lemma fref_inj f h : In f (functions l) -> In h (functions l) -> fref (fn_id f) = fref (fn_id h) -> f = h.
Proof.
  destruct script_chunks as (E & _). rewrite <- E. intros Hf Hh HEq. apply in_map_iff in Hf as (c & <- & Hc). apply in_map_iff in Hh as (d & <- & Hd).
  rewrite (fref_ok _ Hc), (fref_ok _ Hd) in HEq. apply in_split in Hc as (c1 & c2 & Ec). apply in_split in Hd as (d1 & d2 & Ed).
  destruct (chunk_place _ _ _ Ec) as [A1 _]. destruct (chunk_place _ _ _ Ed) as [A2 _]. f_equal. apply (same_chunk c1 d1 c d c2 d2); [congruence| |lia].
  rewrite <- Ec. apply Forall_forall. apply chunk_pos.
Qed.
Lemma chunk_at gc q : In gc chunks -> gc_code gc = q ++ [ins I_RET0] ->
  at_ strtof env (byte buf) (zlen buf) (env (labname (gc_label gc))) q /\ byte buf (env (labname (gc_label gc)) + address q) = opnum I_RET0.
Proof.
  intros HI EQ. apply in_split in HI as (c1 & c2 & E). destruct (chunk_place _ _ _ E) as [A1 A2]. rewrite EQ in A2.
  assert (A3 : address (before ++ chs c1 ++ [L_blank; lab (gc_label gc)]) = env (labname (gc_label gc))). { rewrite A1, !address_cat. cbn [address line_size lab]. lia. }
  set (pp := before ++ chs c1 ++ [L_blank; lab (gc_label gc)]) in *. rewrite <- (app_assoc q) in A2. split.
  - rewrite <- A3. apply (place strtof env P HE _ _ _ A2). rewrite address_cat. change (address [ins I_RET0]) with 1. pose proof (address_pos (chs c2)). lia.
  - rewrite (app_assoc pp) in A2. pose proof (place_code strtof env P _ _ _ A2) as HC. rewrite address_cat, A3 in HC. specialize (HC 0). rewrite Z.add_0_r in HC. unfold buf. rewrite HC; [reflexivity|]. change (address [ins I_RET0]) with 1. lia.
Qed.
Lemma main_at : at_ strtof env (byte buf) (zlen buf) (address pre) main /\ byte buf (address pre + address main) = opnum I_DONE.
Proof.
  assert (A : P = (pre ++ [L_blank; lab 0]) ++ main ++ [L_blank; L_label exitpoint None; ins I_DONE] ++ chs chunks).
  { rewrite program_split. unfold main_lines. fold main. cbn [app]. rewrite <- !app_assoc. cbn [app]. rewrite <- ?app_assoc. reflexivity. }
  assert (A3 : address (pre ++ [L_blank; lab 0]) = address pre) by (rewrite address_cat; cbn [address line_size lab]; lia).
  split.
  - rewrite <- A3. apply (place strtof env P HE _ _ _ A). rewrite address_cat. change (address [L_blank; L_label exitpoint None; ins I_DONE]) with 1. pose proof (address_pos (chs chunks)). lia.
  - rewrite app_assoc in A. pose proof (place_code strtof env P _ _ _ A) as HC. rewrite address_cat, A3 in HC. specialize (HC 0). rewrite Z.add_0_r in HC. unfold buf. rewrite HC; [reflexivity|].
    change (address [L_blank; L_label exitpoint None; ins I_DONE]) with 1. lia.
Qed.
Lemma label_pos gc : In gc chunks -> 0 <= env (labname (gc_label gc)) < address P.
Proof.
  intro H. pose proof (chunk_pos _ H). apply in_split in H as (c1 & c2 & E). destruct (chunk_place _ _ _ E) as [A1 A2]. rewrite A1, A2, !address_cat. pose proof (address_pos before). pose proof (address_pos (chs c1)). pose proof (address_pos (chs c2)).
  cbn [address line_size lab]. lia.
Qed.

Theorem run_script : let ids := sid (g_strs g) in
  forall X (x : X) flist powf fuel, (3 * length (gdefs g) < fuel)%nat ->
  exists v, load_code flist powf buf fuel (vm_new x) = Ok (v, true) /\ (forall s, In s (words l) -> sm_get (v_str v) (ids s) = Some s) /\
    v_state v = S_READY /\ v_stacks v = [[]] /\ v_lsymts v = [] /\ v_ext v = x /\
    prepared (eq (v_str v)) ids (words l) v v (start fref l (v_str v) x) /\ (zlen (g_strs g) <= 65534 -> strings_ok (v_str v)) /\
    (forall w : vm X, v_str w = v_str v -> (forall f, In f (v_lsymts w) -> ~ In None (ls_syms f)) ->
       (about_to (byte buf) w I_PUSHS -> exists y, index y (g_strs g) = Some (instr_arg (byte buf) w)) -> zlen (g_strs g) <= 65534 -> gc_fine (byte buf) w) /\
    forall sm_ok cfun v1 st (fine : vm X -> Prop), c_functions flist sm_ok cfun -> prepared sm_ok ids (words l) v v1 st ->
      (forall w : vm X, sm_ok (v_str w) -> (forall f, In f (v_lsymts w) -> ~ In None (ls_syms f)) ->
         (about_to (byte buf) w I_PUSHS -> exists y, index y (g_strs g) = Some (instr_arg (byte buf) w)) -> fine w) ->
      forall n, does_path flist powf (byte buf) (zlen buf) fine (ended (byte buf) (zlen buf) sm_ok) ids (words l) v1 n (run strtof powf ids fref (functions l) cfun n l st).
Proof.
  intros ids X x flist powf fuel HF. destruct script_chunks as (S1 & S2 & S3). destruct (script_words l) as (W1 & W2 & _). fold g in W1, W2.
  assert (EB : buf = code_bytes strtof env (program (g_strs g) (concat (map def_code (gdefs g)) ++ L_instr I_NOP P_none None :: gen_body l))).
  { unfold buf, P, gen_program, program. fold g. set (R := concat (map def_code (gdefs g)) ++ L_instr I_NOP P_none None :: gen_body l). change (concat (map def_code (gdefs g)) ++ ins I_NOP :: gen_body l) with R.
    change (L_count (zlen (g_strs g)) :: map L_string (g_strs g) ++ L_blank :: R) with ((L_count (zlen (g_strs g)) :: map L_string (g_strs g)) ++ [L_blank] ++ R).
    change (L_count (zlen (g_strs g)) :: map L_string (g_strs g) ++ R) with ((L_count (zlen (g_strs g)) :: map L_string (g_strs g)) ++ R). rewrite !bytes_cat. reflexivity. }
  assert (EA : address P = address (program (g_strs g) (concat (map def_code (gdefs g)) ++ L_instr I_NOP P_none None :: gen_body l))).
  { unfold P, gen_program, program. fold g. repeat (rewrite addr_cons || rewrite address_cat). change (line_size L_blank) with 0. unfold ins. lia. }
  assert (EP : address P - address (gen_body l) = address pre).
  { rewrite program_split. unfold gen_body. fold g main chunks. fold (chs chunks). rewrite !address_cat. lia. }
  assert (HG0 : 0 < address (gen_body l)). { unfold gen_body, main_lines. rewrite !address_cat, !addr_cons, !address_cat. change (address [L_blank; L_label exitpoint None; ins I_DONE]) with 1.
    change (line_size L_blank) with 0. change (line_size (lab 0)) with 0. pose proof (address_pos (fst (gen_script l))). match goal with |- context [address (concat ?q)] => pose proof (address_pos (concat q)) end. lia. }
  destruct (loading_env strtof env (g_strs g) (gdefs g) (gen_body l)) with (X := X) (x := x) (flist := flist) (powf := powf) (fuel := fuel) as (v & V1 & V2 & V3 & V4 & V5 & V6 & V7 & V8 & V9 & V10 & V11 & V12 & V13); auto.
  { unfold lines_ok, P, gen_program, program in *. fold g in HLines. inversion HLines as [|? ? L1 L2]; subst. apply Forall_app in L2 as [L2 L3]. inversion L3; subst. constructor; auto. apply Forall_app. auto. }
  { intros d Hd. unfold gdefs in Hd. apply in_flat_map in Hd as (gc & HI & Hd). destruct (gc_name gc) as [y|]; [|destruct Hd]. destruct (index y (g_strs g)); [|destruct Hd]. destruct Hd as [<-|[]]. cbn [snd].
    pose proof (label_pos gc HI). lia. }
  { lia. } { lia. } { intros d Hd. apply gdefs_range. auto. }
  rewrite <- EB in V1. rewrite <- EA, EP in V6.
  assert (HSv : forall p s, index s (g_strs g) = Some p -> sm_get (v_str v) p = Some s).
  { intros p s Hp. pose proof (index_range _ _ _ Hp). apply index_nth in Hp. specialize (V7 _ _ Hp). rewrite Z2Nat.id in V7 by lia. exact V7. }
  assert (HW : forall y, In y (words l) -> exists p, index y (g_strs g) = Some p /\ ids y = p).
  { intros y Hy. apply W2 in Hy. apply index_in in Hy as [p Hp]. exists p. split; auto. unfold ids, sid. rewrite Hp. reflexivity. }
  exists v. split; [exact V1|]. split. { intros s Hs. destruct (HW s Hs) as (p & Hp & ->). apply HSv. auto. }
  split; [exact V2|]. split; [exact V3|]. split; [exact V4|]. split; [exact V5|].
  split. { split; [exact V2|]. do 3 (split; [reflexivity|]). split; [auto|]. split; [auto|]. split; [auto|]. split; [reflexivity|]. split; [auto|]. split; [|split; [reflexivity|]].
    - intros y Hy. destruct (HW y Hy) as (p & Hp & ->). unfold start. cbn [s_glob]. unfold global. rewrite V8. rewrite <- S2. apply (start_value env fref (g_strs g) chunks y p).
      + intros gc HI. apply fref_ok. auto.
      + exact Hp.
      + intros gc z HI HN. apply W2. apply (names_in l gc z HI HN). fold g. fold chunks. rewrite S2. apply defined_words.
    - intros sm y <- Hy. destruct (HW y Hy) as (p & Hp & ->). apply HSv. auto. }
  split; [exact V13|]. split.
  { intros w E1 E2 E3 HZ. split; [exact E2|]. split; [rewrite E1; auto|]. intro E4. destruct (E3 E4) as [y Hy]. pose proof (index_range _ _ _ Hy). exists y. rewrite E1. unfold wrap16. rewrite Z.mod_small by lia.
    apply index_nth in Hy. specialize (V12 _ _ Hy). rewrite Z2Nat.id in V12 by lia. exact V12. }
  intros sm_ok cfun v1 st fine Hc (B1 & B3 & B4 & B5 & B2 & B6 & B7 & B8 & B9 & B10 & B11 & B12) HFn n. destruct main_at as [M1 M2].
  assert (HI2 : forall y p, index y (g_strs g) = Some p -> In y (words l) /\ ids y = p).
  { intros y p Hp. split; [apply W2, nth_error_In with (n := Z.to_nat p), index_nth; exact Hp|unfold ids, sid; rewrite Hp; reflexivity]. }
  assert (HS : forall p s, index s (g_strs g) = Some p -> 0 <= p < 65536 /\ forall sm, sm_ok sm -> sm_get sm p = Some s).
  { intros p s Hp. pose proof (index_range _ _ _ Hp). split; [lia|]. intros sm Hm. destruct (HI2 _ _ Hp) as [Hy <-]. apply B12; auto. }
  assert (HR0 : rel sm_ok (g_strs g) v1 (address pre) [[]] [] st).
  { split; auto; try congruence. split; auto. intros y p Hy. destruct (HI2 _ _ Hy) as [Hw <-]. auto. }
  pose proof HO as HO1. apply andb_true_iff in HO1 as [HO1 _].
  pose proof (all_statements flist powf strtof env (byte buf) (zlen buf) sm_ok (g_strs g) fref chunks cfun Hc fine HFn) as HSim.
  assert (HZ : zlen buf <= 2 ^ 31) by (unfold buf; rewrite bytes_length; lia).
  assert (HGd : forall gc, In gc chunks -> good strtof (g_strs g) chunks gc) by (apply Forall_forall; exact S3).
  specialize (HSim HZ HS HGd chunk_at fref_ok n l).
  assert (HB : below (g_strs g) chunks (snd (gen_script l))) by (split; [exists []; rewrite app_nil_r; reflexivity|apply incl_refl]).
  specialize (HSim Top (mkG 1 [] []) main (snd (gen_script l)) [] st v1 (address pre) [] [] [] [] HO1 (surjective_pairing (gen_script l)) HB M1 HR0 (conj eq_refl eq_refl)).
  unfold K in HSim. rewrite S1 in HSim. unfold run. fold ids in HSim.
  assert (HT : forall ss, afters Top ss = Top) by (clear; induction ss as [|[] ? IH]; cbn [afters after declare]; auto). rewrite HT in HSim.
  match type of HSim with sim _ _ _ _ _ _ _ ?o _ => destruct o as [[[r l'] st']|e| |] eqn:EX end; cbn [obind sim does_path] in HSim |- *; auto.
  destruct HSim as (k & v2 & HK & HP).
  assert (HQ : rel sm_ok (g_strs g) v2 (address pre + address main) [[]] [] st').
  { destruct r as [o|]; cbn [post] in HP.
    - destruct HP as (ra & s0 & S0 & E & _). discriminate.
    - destruct HP as (F' & R1 & R2). destruct R2 as [_ ->]. exact R1. }
  pose proof HQ as [Q1 Q2 Q3 Q4 Q4' [Q5 Q6 Q6' Q7 Q8 Q9 Q10]].
  assert (HD : vm_step flist powf (byte buf) (zlen buf) v2 = Ok (set_state v2 S_DONE (v_error v2))).
  { rewrite (step_at flist powf (byte buf) (zlen buf) v2 I_DONE); [reflexivity|]. split; auto. rewrite Q2. exact M2. }
  exists (S k), (set_state v2 S_DONE (v_error v2)). split. { replace (S k) with (k + 1)%nat by lia. eapply path_app; [exact HK|]. apply path_one. split; [|exact HD].
    eapply about_fine with (o := I_DONE); [exact HFn|exact HQ| |discriminate]. split; [exact Q1|]. rewrite Q2. exact M2. }
  cbn [set_state v_state v_error v_heap v_stacks v_lsymts v_str v_ext]. do 2 (split; auto).
  split; [|split; [exact Q5|split; [exact Q3|split; [exact Q4|split; [exact Q6|split; [exact Q9|]]]]]].
  2: { split; [change (byte buf (v_pc v2) = opnum I_DONE); rewrite Q2; exact M2|]. split; [change (0 <= v_pc v2 < zlen buf); rewrite Q2|split; auto].
    pose proof (at_range _ _ _ _ _ _ M1). destruct M1 as (_ & _ & N1 & N2). pose proof (address_pos main). lia. }
  intros y Hy. destruct (HW y Hy) as (p & Hp & ->). symmetry. apply Q8. exact Hp.
Qed.
(** A function of the script is called by the host: [v2] is the state in which it was entered. *)
Theorem run_call : let ids := sid (g_strs g) in
  forall X flist powf sm_ok cfun (v2 : vm X) st r cap vs p s S F n,
  c_functions flist sm_ok cfun -> 0 <= p < zlen buf ->
  v_state v2 = S_READY -> v_pc v2 = r -> v_stacks v2 = [] :: (OInt p :: s) :: S -> v_lsymts v2 = mkLs (map Some (cap ++ vs)) false :: F ->
  (forall f, In f F -> ~ In None (ls_syms f)) -> agrees sm_ok ids (words l) v2 st ->
  match call (at_most strtof powf ids fref (functions l) cfun (Datatypes.S n)) (OClos true r cap) vs st with
  | Done (x, st') => exists k v', vm_steps flist powf (byte buf) (zlen buf) k v2 = Ok v' /\ v_state v' = S_READY /\ v_pc v' = p /\
      v_stacks v' = (x :: s) :: S /\ v_lsymts v' = F /\ agrees sm_ok ids (words l) v' st'
  | Fail e => exists k v', vm_steps flist powf (byte buf) (zlen buf) k v2 = Ok v' /\ v_state v' = S_ERROR /\ v_error v' = e
  | Unspec => True
  | More => exists k v', (n <= k)%nat /\ vm_steps flist powf (byte buf) (zlen buf) k v2 = Ok v' /\ v_state v' = S_READY
  end.
Proof.
  intros ids X flist powf sm_ok cfun v2 st r cap vs p s S F n Hc Hp A1 A2 A3 A4 A5 (B1 & B2 & B3 & B4 & B5 & B6 & B7 & B8).
  destruct script_chunks as (S1 & S2 & S3). destruct (script_words l) as (W1 & W2 & _). fold g in W1, W2.
  assert (HW : forall y, In y (words l) -> exists p, index y (g_strs g) = Some p /\ ids y = p).
  { intros y Hy. apply W2 in Hy. apply index_in in Hy as [q Hq]. exists q. split; auto. unfold ids, sid. rewrite Hq. reflexivity. }
  assert (HI2 : forall y p, index y (g_strs g) = Some p -> In y (words l) /\ ids y = p).
  { intros y q Hq. split; [apply W2, nth_error_In with (n := Z.to_nat q), index_nth; exact Hq|unfold ids, sid; rewrite Hq; reflexivity]. }
  assert (HS : forall p s, index s (g_strs g) = Some p -> 0 <= p < 65536 /\ forall sm, sm_ok sm -> sm_get sm p = Some s).
  { intros q y Hq. pose proof (index_range _ _ _ Hq). split; [lia|]. intros sm Hm. destruct (HI2 _ _ Hq) as [Hy <-]. apply B8; auto. }
  assert (HR0 : 0 <= r < zlen buf -> rel sm_ok (g_strs g) v2 r ([] :: (OInt p :: s) :: S) (mkLs (map Some (cap ++ vs)) false :: F) st).
  { intros _. split; auto.
    - intros f [<-|Hf]; [|auto]. cbn [ls_syms]. intro H. apply in_map_iff in H as (? & H & _). discriminate.
    - split; auto. intros y q Hy. destruct (HI2 _ _ Hy) as [Hw <-]. auto. }
  assert (HZ : zlen buf <= 2 ^ 31) by (unfold buf; rewrite bytes_length; lia).
  assert (HGd : forall gc, In gc chunks -> good strtof (g_strs g) chunks gc) by (apply Forall_forall; exact S3).
  pose proof (host_call flist powf strtof env (byte buf) (zlen buf) sm_ok (g_strs g) fref chunks cfun Hc (fun _ => True) (fun _ _ _ _ => I) HZ HS HGd chunk_at fref_ok n r cap vs st v2 p s S F Hp HR0) as HSim.
  unfold K in HSim. rewrite S1 in HSim. fold ids in HSim.
  destruct (call _ _ _ _) as [[x st']|e| |]; cbn [sim fst snd] in HSim; auto.
  - destruct HSim as (k & v' & [HK _] & [Q1 Q2 Q3 Q4 Q4' [Q5 Q6 Q6' Q7 Q8 Q9 Q10]]). exists k, v'. do 5 (split; auto). do 5 (split; auto). split; [|split; auto].
    intros y Hy. destruct (HW y Hy) as (q & Hq & ->). apply Q8. exact Hq.
  - destruct HSim as (k & v' & [HK _] & HR). eauto.
  - destruct HSim as (k & v' & Hk & [HK _] & HR). eauto.
Qed.
End Run.
