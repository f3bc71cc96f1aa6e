(** Loading bytecode (C46). *)
From Coq Require Import String.
From Verif Require Import Base ListLemmas Float Dict DictProofs PDict PDictKeys Strman StrmanProofs Obj Instr Vm VmSpec VmProofs PropsVm PropsVmData Text TextProofs Asm AsmSpec AsmProofs PropsAsm VmCode Load StrmanSpec GcSpec.
From Verif Require WireProofs GcMark.

Ltac Zify.zify_post_hook ::= idtac.

(** ** Strings *)
Record numbered (sm : strman) (l : list str) : Prop := {
  nu_s : PWf strkeyhash str_eqb (str2id sm);
  nu_i : PWf int16keyhash u16_eqb (id2str sm);
  nu_new : forall s, ~ In s l -> s2i_get (str2id sm) s = None;
  nu_get : forall k s, nth_error l k = Some s -> i2s_get (id2str sm) (Z.of_nat k) = Some (s, true);
  nu_free : forall k, zlen l <= k < 65536 -> i2s_get (id2str sm) k = None;
  nu_max : maxsid sm = zlen l;
  nu_live : sm_live sm <= zlen l;
  nu_ok : zlen l <= 65534 -> strings_ok sm
}.
Lemma numbered_new : numbered sm_new [].
Proof.
  constructor; cbn [sm_new str2id id2str maxsid].
  - apply (wf_new _ _ _ good_str). lia.
  - apply (wf_new _ _ _ good_i16). lia.
  - intros s _. apply (get_new _ _ _ good_str). lia.
  - intros [|k] s H; discriminate.
  - intros k _. apply (get_new _ _ _ good_i16). lia.
  - reflexivity.
  - vm_compute. discriminate.
  - intros _. exists [], []. split; [exact I|reflexivity].
Qed.
Lemma fuel_S : exists f, sm_fuel = S f.
Proof. destruct sm_fuel as [|f] eqn:E; [|eauto]. assert (H : Z.of_nat sm_fuel = 65537) by (unfold sm_fuel; lia). rewrite E in H. discriminate. Qed.
Opaque sm_fuel.
Lemma register_next sm l s : numbered sm l -> ~ In s l -> zlen l < 65535 ->
  exists sm', sm_register sm_fuel sm s true = Ok (sm', zlen l) /\ numbered sm' (l ++ [s]).
Proof.
  intros N HN HL. unfold sm_register. rewrite (nu_new _ _ N s HN), (nu_max _ _ N).
  assert (H0 : 0 <= zlen l) by (unfold zlen; lia).
  assert (HW : wrap16 (zlen l + 1) = zlen l + 1) by (unfold wrap16; rewrite Z.mod_small by lia; reflexivity). rewrite HW.
  replace (zlen l + 1 =? 0) with false by lia. destruct fuel_S as [f ->]. cbn [find_free]. rewrite (nu_free _ _ N) by lia. cbn [bind].
  match goal with |- exists sm', Ok (?m, _) = _ /\ _ => set (sm1 := m) end.
  assert (ER : sm_register sm_fuel sm s true = Ok (sm1, zlen l)).
  { unfold sm_register. rewrite (nu_new _ _ N s HN), (nu_max _ _ N), HW. replace (zlen l + 1 =? 0) with false by lia. destruct fuel_S as [f' ->]. cbn [find_free]. rewrite (nu_free _ _ N) by lia. reflexivity. }
  exists sm1. split; [reflexivity|]. destruct N. constructor; subst sm1; cbn [str2id id2str maxsid].
  - apply (wf_set _ _ _ good_str). auto.
  - apply (wf_set _ _ _ good_i16). auto.
  - intros t Ht. unfold s2i_get, s2i_set. rewrite (get_set _ _ _ good_str) by auto. destruct (str_eqb s t) eqn:E.
    + apply str_eqb_eq in E. subst t. exfalso. apply Ht. apply in_or_app. right. left. auto.
    + apply nu_new0. intro. apply Ht. apply in_or_app. auto.
  - intros k t H. unfold i2s_get, i2s_set. rewrite (get_set _ _ _ good_i16) by auto.
    assert (Hk : (k < length (l ++ [s]))%nat) by (apply nth_error_Some; congruence). rewrite app_length in Hk. cbn in Hk. unfold zlen in *.
    rewrite u16_eqb_rng by lia. destruct (Z.of_nat (length l) =? Z.of_nat k) eqn:E.
    + replace k with (length l) in H by lia. rewrite nth_error_app2, Nat.sub_diag in H by lia. inversion H. auto.
    + apply nu_get0. rewrite nth_error_app1 in H by lia. auto.
  - intros k Hk. unfold i2s_get, i2s_set. rewrite (get_set _ _ _ good_i16) by auto. rewrite zlen_app in Hk. change (zlen [s]) with 1 in Hk.
    rewrite u16_eqb_rng by lia. replace (zlen l =? k) with false by lia. apply nu_free0. lia.
  - rewrite zlen_app. reflexivity.
  - pose proof (WireProofs.register_live _ _ _ _ _ nu_s0 ER). rewrite zlen_app. change (zlen [s]) with 1. lia.
  - rewrite zlen_app. change (zlen [s]) with 1. intro HZ. destruct nu_ok0 as (ops & outs & O1 & O2); [lia|]. exists (ops ++ [SmReg s true]), (outs ++ [SmId (zlen l)]). split.
    + eapply GcMark.smhist_app; [exact O1|exact O2|]. cbn [smhist_ok smop_ok]. split; [lia|]. destruct (sm_step _ _) as [[]| | |]; exact I.
    + rewrite GcMark.sm_run_app, O2. cbn [bind sm_run sm_step]. rewrite ER. reflexivity.
Qed.
Lemma rd_cstr_str s : Forall (fun c => c <> 0) s -> forall pre post fuel, (length s < fuel)%nat -> rd_cstr fuel (pre ++ s ++ 0 :: post) (zlen pre) = Ok s.
Proof.
  induction 1 as [|c s HC _ IH]; intros pre post fuel HF; destruct fuel as [|f]; try lia; cbn [rd_cstr app].
  - rewrite rd_at. reflexivity.
  - rewrite rd_at. cbn [bind]. replace (c =? 0) with false by lia. specialize (IH (pre ++ [c]) post f).
    rewrite <- app_assoc in IH. cbn [app] in IH. replace (zlen (pre ++ [c])) with (zlen pre + 1) in IH by (rewrite zlen_app; reflexivity). cbn [length] in HF. rewrite IH by lia. reflexivity.
Qed.
Definition table_bytes (strs : list str) : list Z := concat (map (fun s => s ++ [0]) strs).
Lemma load_ok strs : Forall (Forall (fun c => c <> 0)) strs ->
  forall l sm pre post, numbered sm l -> NoDup (l ++ strs) -> zlen (l ++ strs) <= 65535 ->
  exists sm', load_strings (length strs) (pre ++ table_bytes strs ++ post) (zlen pre) sm = Ok (sm', zlen pre + zlen (table_bytes strs)) /\
    numbered sm' (l ++ strs).
Proof.
  induction 1 as [|s strs HS _ IH]; intros l sm pre post N ND HL; cbn [load_strings length].
  - exists sm. rewrite app_nil_r. change (zlen (table_bytes [])) with 0. rewrite Z.add_0_r. auto.
  - unfold table_bytes. cbn [map concat]. fold (table_bytes strs).
    match goal with |- context [if ?b then _ else _] => replace b with true end.
    2: { symmetry. rewrite zlen_app. unfold zlen. rewrite !app_length. cbn [length]. lia. }
    rewrite <- !app_assoc. cbn [app]. rewrite rd_cstr_str; [|auto|rewrite !app_length; cbn [length]; lia]. cbn [bind].
    destruct (register_next sm l s N) as (sm1 & E & N1).
    { intro HI. apply NoDup_remove_2 in ND. apply ND. apply in_or_app. auto. }
    { rewrite zlen_app in HL. unfold zlen in *. cbn [length] in HL. lia. }
    rewrite E. cbn [bind]. destruct (IH (l ++ [s]) sm1 (pre ++ s ++ [0]) post N1) as (sm' & E' & N').
    { rewrite <- app_assoc. auto. } { rewrite <- app_assoc. auto. }
    rewrite <- ?app_assoc in N'. cbn [app] in N'. exists sm'. split; auto.
    replace ((pre ++ s ++ [0]) ++ table_bytes strs ++ post) with (pre ++ s ++ 0 :: table_bytes strs ++ post) in E' by (rewrite <- !app_assoc; reflexivity).
    assert (HZ : zlen (pre ++ s ++ [0]) = zlen pre + zlen s + 1) by (rewrite !zlen_app; change (zlen [0]) with 1; lia).
    rewrite HZ in E'. rewrite E'. f_equal. f_equal. change (0 :: table_bytes strs) with ([0] ++ table_bytes strs). rewrite !zlen_app. change (zlen [0]) with 1. lia.
Qed.

(** ** Definitions of functions *)
(** The instructions that define the global function number [fst d] at label [snd d]. *)
Definition def_code (d : Z * str) : list aline :=
  [L_instr I_PUSHS (P_int (fst d)) None; L_instr I_PUSHCN (P_label (snd d)) None; L_instr I_GSTORE P_none None].
(** The closure a global holds after the definitions. *)
Definition defined_fun (env : str -> Z) (defs : list (Z * str)) (sid : Z) : option obj :=
  fold_left (fun acc d => if fst d =? sid then Some (OClos true (env (snd d)) [ONil]) else acc) defs None.

Section Run.
Context {X : Type}.
Implicit Types v : vm X.
Variable flist : list (vm X -> res (vm X)).
Variable powf : libm.
Variable buf : list Z.
Notation code := (byte buf).
Notation size := (zlen buf).
Notation vm_step := (vm_step flist powf code size).

Lemma rd_byte i : 0 <= i < size -> rd buf i = Ok (code i).
Proof. intro H. destruct (rd_in buf i H) as [b E]. rewrite E. unfold rd, byte in *. replace (0 <=? i) with true in * by lia. destruct (nth_error buf (Z.to_nat i)) eqn:EN; inversion E; subst. f_equal. symmetry. apply nth_error_nth. auto. Qed.
Lemma nop_step_cont v o f : can_run code size v o -> opnum o <> 0 -> run_to_nop flist powf buf (S f) v =
  (v1 <- vm_step v ;; if is_ready (v_state v1) then run_to_nop flist powf buf f v1 else Ok (v1, false)).
Proof.
  intros HC HO. cbn [run_to_nop]. destruct HC as ((HR & HB) & H0 & H1). rewrite rd_byte by (unfold instr_len in H1; destruct (has_arg o); lia). cbn [bind].
  rewrite HB. replace (opnum o =? opnum I_NOP) with false by (change (opnum I_NOP) with 0; lia). reflexivity.
Qed.

Lemma defs_run strtof env strs defs : forall v rest, (forall d, In d defs -> 0 <= env (snd d) < 2 ^ 31) ->
  code_at strtof env code (v_pc v) (concat (map def_code defs) ++ rest) -> address rest > 0 ->
  0 <= v_pc v -> v_pc v + address (concat (map def_code defs) ++ rest) <= size ->
  v_state v = S_READY -> stored_globals (v_gsyms v) -> v_stacks v <> [] ->
  (forall d, In d defs -> 0 <= fst d < zlen strs) -> zlen strs <= 65535 -> numbered (v_str v) strs ->
  exists v', (forall f, run_to_nop flist powf buf (3 * length defs + f) v = run_to_nop flist powf buf f v') /\
    v_pc v' = v_pc v + address (concat (map def_code defs)) /\ v_state v' = S_READY /\ v_stacks v' = v_stacks v /\ v_str v' = v_str v /\
    v_heap v' = v_heap v /\ v_lsymts v' = v_lsymts v /\ v_ext v' = v_ext v /\ stored_globals (v_gsyms v') /\ v_error v' = v_error v /\
    forall sid, gsym_get (v_gsyms v') sid = fold_left (fun acc d => if fst d =? sid then Some (OClos true (env (snd d)) [ONil]) else acc) defs (gsym_get (v_gsyms v) sid).
Proof.
  induction defs as [|[i lab] defs IH]; intros v rest HEnv HC HR H0 HS HV HG HN HD HL N.
  - exists v. cbn [map concat address length Nat.mul Nat.add fold_left]. rewrite Z.add_0_r. repeat split; auto.
  - cbn [map concat] in *. unfold def_code in HC at 1. cbn [app fst snd] in HC.
    apply code_at_cons in HC as [C1 HC]. apply code_at_cons in HC as [C2 HC]. apply code_at_cons in HC as [C3 HC].
    change (line_size (L_instr I_PUSHS (P_int i) None)) with 5 in *. change (line_size (L_instr I_PUSHCN (P_label lab) None)) with 5 in *. change (line_size (L_instr I_GSTORE P_none None)) with 1 in *.
    rewrite <- app_assoc in HS. rewrite address_cat in HS. change (address (def_code (i, lab))) with 11 in HS.
    assert (HA : address (concat (map def_code defs) ++ rest) > 0) by (rewrite address_cat; pose proof (address_pos (concat (map def_code defs))); lia).
    destruct (at_instr strtof env code v I_PUSHS _ _ size C1 HV H0 ltac:(change (instr_len I_PUSHS) with 5; lia)) as [R1 A1].
    assert (Hi : 0 <= i < zlen strs) by (apply (HD (i, lab)); left; auto).
    destruct (nth_error strs (Z.to_nat i)) as [s|] eqn:Es. 2: { apply nth_error_None in Es. unfold zlen in Hi. lia. }
    pose proof (nu_get _ _ N _ _ Es) as Gs. rewrite Z2Nat.id in Gs by lia.
    assert (S1 : vm_step v = Ok (next v 5 (OStr i s :: stack v))).
    { apply pushs_step; auto; [lia|]. unfold sm_get. rewrite Gs. reflexivity. }
    set (v1 := next v 5 (OStr i s :: stack v)) in *.
    destruct (at_instr strtof env code v1 I_PUSHCN (P_label lab) None size) as [R2 A2]; auto; try (cbn [v1 next v_pc]; lia).
    { cbn [v1 next v_pc]. change (instr_len I_PUSHCN) with 5. lia. }
    assert (S2 : vm_step v1 = Ok (next v1 5 (OClos true (env lab) [ONil] :: stack v1))) by (apply pushcn_step; auto; apply (HEnv (i, lab)); left; auto).
    set (v2 := next v1 5 (OClos true (env lab) [ONil] :: stack v1)) in *.
    destruct (at_instr strtof env code v2 I_GSTORE P_none None size) as [R3 _]; auto.
    { cbn [v2 v1 next v_pc]. lia. } { cbn [v2 v1 next v_pc]. change (instr_len I_GSTORE) with 1. lia. }
    assert (S3 : vm_step v2 = Ok (set_gsyms (next v2 1 (stack v)) (gsym_set (v_gsyms v) i (OClos true (env lab) [ONil])))).
    { rewrite (step_at flist powf code size v2 _ (proj1 R3)). cbn [exec]. rewrite (run_inc code size _ _ _ R3).
      unfold vm_gstore, stack_assert, type_assert, stack_at. change (stack (bump v2)) with (OClos true (env lab) [ONil] :: OStr i s :: stack v).
      replace (zlen (OClos true (env lab) [ONil] :: OStr i s :: stack v) - 2 <? 0) with false by (unfold zlen; cbn [length]; lia). reflexivity. }
    set (v3 := set_gsyms (next v2 1 (stack v)) (gsym_set (v_gsyms v) i (OClos true (env lab) [ONil]))) in *.
    assert (P3 : v_pc v3 = v_pc v + 11) by (cbn [v3 v2 v1 set_gsyms next v_pc]; lia).
    destruct (IH v3 rest) as (v' & ER & E1 & E2 & E3 & E4 & E5 & E6 & E7 & E8 & E10 & E9); auto.
    { intros d Hd. apply HEnv. right. auto. } { lia. } { rewrite P3. lia. }
    { cbn [v3 set_gsyms v_gsyms]. apply stored_set. auto. } { cbn [v3 set_gsyms v_stacks next]. discriminate. }
    { intros d Hd. apply HD. right. auto. }
    exists v'. split.
    { intro f. replace (3 * length ((i, lab) :: defs) + f)%nat with (S (S (S (3 * length defs + f)))) by (cbn [length]; lia).
      rewrite (nop_step_cont v I_PUSHS _ R1) by discriminate. rewrite S1. cbn [bind]. replace (is_ready (v_state v1)) with true by (cbn [v1 next v_state]; rewrite HV; reflexivity).
      rewrite (nop_step_cont v1 I_PUSHCN _ R2) by discriminate. rewrite S2. cbn [bind]. replace (is_ready (v_state v2)) with true by (cbn [v2 v1 next v_state]; rewrite HV; reflexivity).
      rewrite (nop_step_cont v2 I_GSTORE _ R3) by discriminate. rewrite S3. cbn [bind]. replace (is_ready (v_state v3)) with true by (cbn [v3 v2 v1 set_gsyms next v_state]; rewrite HV; reflexivity).
      apply ER. }
    assert (K : v_stacks v3 = v_stacks v).
    { cbn [v3 v2 v1 set_gsyms next v_stacks tl]. unfold stack. destruct (v_stacks v); [congruence|reflexivity]. }
    split. { rewrite E1, P3. rewrite address_cat. change (address (def_code (i, lab))) with 11. lia. }
    split; [exact E2|]. split; [rewrite E3; exact K|]. split; [exact E4|]. split; [exact E5|]. split; [exact E6|]. split; [exact E7|]. split; [exact E8|]. split; [exact E10|].
    intro sid. rewrite E9. cbn [fold_left fst snd]. f_equal. cbn [v3 set_gsyms v_gsyms]. rewrite get_stored by auto. reflexivity.
Qed.
End Run.

(** Loading the bytes of a program. *)
Lemma loading_env :
  forall strtof env strs defs body,
  let p := program strs (concat (map def_code defs) ++ L_instr I_NOP P_none None :: body) in
  lines_ok strtof p -> (forall d, In d defs -> 0 <= env (snd d) < 2 ^ 31) -> address p < 2 ^ 31 -> address body > 0 ->
  NoDup strs -> (forall d, In d defs -> 0 <= fst d < zlen strs) ->
  forall X (x : X) flist powf fuel, (3 * length defs < fuel)%nat ->
  exists v, load_code flist powf (code_bytes strtof env p) fuel (vm_new x) = Ok (v, true) /\
      v_state v = S_READY /\ v_stacks v = [[]] /\ v_lsymts v = [] /\ v_ext v = x /\ v_pc v = address p - address body /\
      (forall i s, nth_error strs i = Some s -> sm_get (v_str v) (Z.of_nat i) = Some s) /\
      (forall sid, gsym_get (v_gsyms v) sid = defined_fun env defs sid) /\ v_heap v = [] /\ stored_globals (v_gsyms v) /\ v_error v = E_NONE /\
      (forall i s, nth_error strs i = Some s -> string_of (v_str v) (Z.of_nat i) = Some (s, true)) /\ (zlen strs <= 65534 -> strings_ok (v_str v)).
Proof.
  intros strtof env strs defs body p HP HEnv HB HBody ND HD X x flist powf fuel HF.
  set (n := zlen strs) in *. assert (Hn : 0 <= n < 65536). { inversion HP as [|? ? HN _]; subst. exact HN. }
  set (tail := concat (map def_code defs) ++ L_instr I_NOP P_none None :: body) in *.
  assert (HT : code_bytes strtof env p = [n mod 256; n / 256] ++ table_bytes strs ++ code_bytes strtof env tail).
  { unfold p, program. unfold code_bytes at 1. cbn [map concat line_bytes]. f_equal. rewrite map_app, concat_app. f_equal. rewrite map_map. reflexivity. }
  set (buf := code_bytes strtof env p) in *.
  assert (HZ : zlen buf = address p) by apply bytes_length.
  assert (HAT : address p = 2 + zlen (table_bytes strs) + address tail).
  { rewrite <- HZ, HT. rewrite !zlen_app, bytes_length. change (zlen [n mod 256; n / 256]) with 2. lia. }
  assert (R0 : rd buf 0 = Ok (n mod 256)) by (rewrite HT; apply (rd_at [])).
  assert (R1 : rd buf 1 = Ok (n / 256)) by (rewrite HT; apply (rd_at [n mod 256])).
  unfold load_code. rewrite R0, R1. cbn [bind].
  replace (n mod 256 + 256 * (n / 256)) with n by (pose proof (Z.div_mod n 256); lia).
  replace (Z.to_nat n) with (length strs) by (unfold n, zlen; lia).
  assert (HS0 : Forall (Forall (fun c => c <> 0)) strs).
  { inversion HP as [|? ? _ HP']; subst. apply Forall_app in HP' as [HS _]. rewrite Forall_forall in HS. apply Forall_forall. intros s Hs. apply Forall_forall. intros c Hc.
    specialize (HS (L_string s) (in_map _ _ _ Hs)). cbn [line_ok] in HS. rewrite Forall_forall in HS. apply (HS c Hc). }
  destruct (load_ok strs HS0 [] sm_new [n mod 256; n / 256] (code_bytes strtof env tail) numbered_new ND) as (sm & EL & N); [unfold n in Hn; cbn [app]; lia|].
  rewrite <- HT in EL. change (zlen [n mod 256; n / 256]) with 2 in EL. change (v_str (vm_new x)) with sm_new.
  match goal with |- exists v, bind ?e _ = _ /\ _ => replace e with (Ok (sm, 2 + zlen (table_bytes strs))) by (symmetry; exact EL) end. cbn [bind]. cbn [app] in N.
  set (v0 := set_oldpc (set_pc (set_state (set_str (vm_new x) sm) S_READY E_NONE) (2 + zlen (table_bytes strs))) (2 + zlen (table_bytes strs))).
  assert (HC : code_at strtof env (byte buf) (v_pc v0) tail).
  { cbn [v0 set_oldpc set_pc v_pc]. apply (code_at_start strtof env (byte buf) ([n mod 256; n / 256] ++ table_bytes strs) tail []).
    - rewrite zlen_app. reflexivity.
    - rewrite app_nil_r, <- app_assoc, <- HT. reflexivity. }
  assert (HTl : address tail = address (concat (map def_code defs)) + 1 + address body).
  { unfold tail. rewrite address_cat. cbn [address]. change (line_size (L_instr I_NOP P_none None)) with 1. lia. }
  pose proof (address_pos (concat (map def_code defs))) as HAP. assert (HZ0 : 0 <= zlen (table_bytes strs)) by (unfold zlen; lia).
  destruct (defs_run flist powf buf strtof env strs defs v0 (L_instr I_NOP P_none None :: body) HEnv HC) as (v' & ER & E1 & E2 & E3 & E4 & E5 & E6 & E7 & E8 & E10 & E9); auto.
  { cbn [address]. change (line_size (L_instr I_NOP P_none None)) with 1. lia. }
  { cbn [v0 set_oldpc set_pc v_pc]. lia. }
  { fold tail. cbn [v0 set_oldpc set_pc v_pc]. lia. }
  { exists []. reflexivity. }
  { discriminate. } { unfold n in Hn. lia. }
  replace fuel with (3 * length defs + S (fuel - 3 * length defs - 1))%nat by lia. rewrite ER. cbn [run_to_nop].
  assert (HPC : v_pc v' = 2 + zlen (table_bytes strs) + address (concat (map def_code defs))) by exact E1.
  apply code_at_app in HC as [_ HC]. apply code_at_cons in HC as [HC _].
  destruct (at_instr strtof env (byte buf) v' I_NOP P_none None (zlen buf)) as [R _]; auto.
  { rewrite E1. exact HC. } { lia. } { change (instr_len I_NOP) with 1. lia. }
  rewrite (rd_byte buf (v_pc v')) by lia. cbn [bind]. rewrite (proj2 (proj1 R)). rewrite Z.eqb_refl.
  rewrite (step_at flist powf (byte buf) (zlen buf) v' _ (proj1 R)). cbn [exec]. rewrite (run_inc _ _ _ _ _ R). cbn [done_ bind].
  eexists. split; [reflexivity|]. cbn [bump set_pc set_oldpc v_state v_stacks v_lsymts v_ext v_pc v_str v_gsyms v_heap v_error].
  split; [exact E2|]. split; [rewrite E3; reflexivity|]. split; [rewrite E6; reflexivity|]. split; [rewrite E7; reflexivity|]. split; [lia|]. split; [|split; [|split; [rewrite E5; reflexivity|split; [exact E8|split; [rewrite E10; reflexivity|split]]]]].
  - intros i s Hs. rewrite E4. cbn [v0 set_oldpc set_pc set_state set_str v_str]. unfold sm_get. rewrite (nu_get _ _ N _ _ Hs). reflexivity.
  - intro sid. rewrite E9. unfold defined_fun. f_equal. cbn [v0 set_oldpc set_pc set_state set_str v_gsyms vm_new]. apply (get_new _ _ _ good_u). lia.
  - intros i s Hs. rewrite E4. cbn [v0 set_oldpc set_pc set_state set_str v_str]. exact (nu_get _ _ N _ _ Hs).
  - rewrite E4. exact (nu_ok _ _ N).
Qed.

(** Loading assembled code in a new VM: the strings get the numbers of their positions, the functions
    defined in front of the first nop are stored in their global variables, and the VM is ready behind the
    nop with an empty stack. *)
Theorem C46_loading :
  forall strtof strs defs body,
  let p := program strs (concat (map def_code defs) ++ L_instr I_NOP P_none None :: body) in
  lines_ok strtof p -> labels_ok p -> address p < 2 ^ 31 -> address body > 0 ->
  NoDup strs -> (forall d, In d defs -> 0 <= fst d < zlen strs) ->
  exists env code dbg,
    (forall name a, defined_at p name a -> env name = a) /\ buzz_asm strtof (text p) = Ok (0, code, dbg) /\
    forall X (x : X) flist powf fuel, (3 * length defs < fuel)%nat ->
    exists v, load_code flist powf code fuel (vm_new x) = Ok (v, true) /\
      v_state v = S_READY /\ v_stacks v = [[]] /\ v_lsymts v = [] /\ v_ext v = x /\ v_pc v = address p - address body /\
      (forall i s, nth_error strs i = Some s -> sm_get (v_str v) (Z.of_nat i) = Some s) /\
      (forall sid, gsym_get (v_gsyms v) sid = defined_fun env defs sid).
Proof.
  intros strtof strs defs body p HP HL HB HBody ND HD. destruct (asm_ok strtof p HP HL) as (env & HE & EA).
  exists env. eexists. eexists. split; [exact HE|]. split; [exact EA|]. clear EA. intros X x flist powf fuel HF.
  assert (HEnv : forall d, In d defs -> 0 <= env (snd d) < 2 ^ 31).
  { intros d Hd. destruct HL as [HL1 _].
    assert (HU : uses p (snd d)).
    { exists I_PUSHCN, None. unfold p, program. right. apply in_or_app. right. apply in_or_app. left. apply in_concat. exists (def_code d). split; [apply in_map; auto|].
      unfold def_code. right. left. reflexivity. }
    destruct (HL1 _ HU) as (a & HDa & Ha). rewrite (HE _ _ HDa). destruct HDa as (q1 & ? & ? & _ & ->). pose proof (address_pos q1). lia. }
  destruct (loading_env strtof env strs defs body HP HEnv HB HBody ND HD X x flist powf fuel HF) as (v & H1 & H2 & H3 & H4 & H5 & H6 & H7 & H8 & _).
  exists v. auto 9.
Qed.
Print Assumptions C46_loading.

(** Pushing string [i] pushes the i-th string, as long as the string manager keeps it (it is
    protected: C09). *)
Theorem C46_pushs :
  forall X flist powf code size (v : vm X) i s,
  can_run code size v I_PUSHS -> instr_arg code v = i -> 0 <= i < 65536 -> sm_get (v_str v) i = Some s ->
  vm_step flist powf code size v = Ok (next v 5 (OStr i s :: stack v)).
Proof.
  intros X flist powf code size v i s HC HI Hi HS. apply pushs_step; auto. rewrite HI. unfold wrap32. rewrite Z.mod_small by lia. reflexivity.
Qed.
Print Assumptions C46_pushs.
Example C46_a_program :
  let body := [L_label (bs "@f") None; L_instr I_PUSHS (P_int 1) None; L_instr I_DONE P_none None] in
  let defs := [(0, bs "@f")] in
  let p := program [bs "init"; bs "hello"] (concat (map def_code defs) ++ L_instr I_NOP P_none None :: body) in
  lines_ok no_strtof p /\ labels_ok p /\ address p < 2 ^ 31 /\ address body > 0 /\ NoDup [bs "init"; bs "hello"] /\
  (forall d, In d defs -> 0 <= fst d < zlen [bs "init"; bs "hello"]) /\
  defined_fun (fun _ => 25) defs 0 = Some (OClos true 25 [ONil]).
Proof.
  split; [apply lines_okb_ok; vm_compute; reflexivity|]. split; [apply labels_okb_ok; vm_compute; reflexivity|].
  split; [vm_compute; reflexivity|]. split; [vm_compute; reflexivity|]. split.
  - constructor; [intros [H|[]]; discriminate|]. constructor; [intros []|constructor].
  - split; [|reflexivity]. intros d [<-|[]]. cbn. lia.
Qed.

(** A table with the same string twice does not number its strings in order (the compiler does not write
    such tables; the assembler accepts them). *)
Theorem C46_repeated_string_refuted :
  exists strs buf v, buf = [3; 0] ++ concat (map (fun s => s ++ [0]) strs) ++ [0; 1] /\ strs = [bs "a"; bs "a"; bs "b"] /\
    load_code [] no_pow buf 9 (vm_new tt) = Ok (v, true) /\ sm_get (v_str v) 1 = Some (bs "b") /\ sm_get (v_str v) 2 = None.
Proof.
  eexists [bs "a"; bs "a"; bs "b"], _, _. split; [reflexivity|]. split; [reflexivity|].
  split; [vm_compute; reflexivity|]. split; vm_compute; reflexivity.
Qed.
Print Assumptions C46_repeated_string_refuted.

(** Bytecode without instructions, or with a string that does not end, is read past its end. *)
Theorem C46_truncated_bytecode_refuted :
  (exists buf, load_code [] no_pow buf 9 (vm_new tt) = UB /\ buf = [1; 0; 65; 0]) /\
  (exists buf, load_code [] no_pow buf 9 (vm_new tt) = UB /\ buf = [1; 0; 65]).
Proof. split; eexists; (split; [|reflexivity]); vm_compute; reflexivity. Qed.
Print Assumptions C46_truncated_bytecode_refuted.
