(** Lemmas for the set-up of the standard library. *)
From Coq Require Import String.
From Verif Require Import Base ListLemmas Float Dict PDict PDictKeys Strman StrmanSpec StrmanProofs Obj ObjSpec ObjProofs Instr Vm VmSpec VmProofs
  PropsVmData Text Asm Load Strlib PropsSwarmExec WireProofs TableLibProofs PropsTableLib CFunSpec CFunProofs Source CompileSpec GcSpec HostSpec NeighborsVm NeighborsVmSpec NeighborsVmProofs PropsNeighborsAdd Register LibrarySpec PropsHost.
Local Open Scope Z_scope.
Local Open Scope list_scope.

Fixpoint glob_over (g : str -> obj) (G : list (string * obj)) : str -> obj :=
  match G with [] => g | (n, o) :: r => fun y => if same (bs n) y then o else glob_over g r y end.
Lemma glob_over_app g G G' : glob_over g (G' ++ G) = glob_over (glob_over g G) G'.
Proof. induction G' as [|[n o] G' IH]; cbn [app glob_over]; [reflexivity|]. rewrite IH. reflexivity. Qed.
Lemma room_strings l sm : room_for l sm -> strings_ok sm.
Proof. intros [(ops & outs & A & B) _]. exists ops, outs. auto. Qed.
Lemma same_refl (x : str) : same x x = true. Proof. unfold same. destruct (list_eq_dec Z.eq_dec x x); congruence. Qed.

Definition sees (g : pdict Z obj) (i : Z) : obj := match gsym_get g i with Some o => o | None => ONil end.
Section St4.
Context {X : Type}.
Implicit Types v : vm X.
Definition st4 v (g : pdict Z obj) sm h s : vm X := st3 (set_gsyms v g) sm h s.
Lemma st4_push v g sm h s o : push (st4 v g sm h s) o = st4 v g sm h (o :: s). Proof. reflexivity. Qed.
Lemma st4_dup v g sm h s o : vm_dup (st4 v g sm h (o :: s)) = st4 v g sm h (o :: o :: s). Proof. reflexivity. Qed.
Lemma st4_new v g sm h s : new_table (st4 v g sm h s) = (st4 v g sm (h ++ [tab_new]) s, OTab (zlen h)). Proof. reflexivity. Qed.
Lemma st4_pusht v g sm h s : vm_pusht (st4 v g sm h s) = st4 v g sm (h ++ [tab_new]) (OTab (zlen h) :: s). Proof. reflexivity. Qed.
Lemma gstore_st4 v g sm h s id n o : vm_gstore (st4 v g sm h (o :: OStr id n :: s)) = Ok (st4 v (gsym_set g id o) sm h s).
Proof.
  unfold vm_gstore, stack_assert, type_assert. change (stack (st4 v g sm h (o :: OStr id n :: s))) with (o :: OStr id n :: s).
  replace (zlen (o :: OStr id n :: s) - 2 <? 0) with false by (unfold zlen; cbn [length]; lia).
  change (stack_at (st4 v g sm h (o :: OStr id n :: s)) 2) with (@Ok obj (OStr id n)). reflexivity.
Qed.
Lemma gload_st4 v g sm h s id n : vm_gload (st4 v g sm h (OStr id n :: s)) = Ok (st4 v g sm h (sees g id :: s)).
Proof.
  unfold vm_gload, stack_assert, type_assert. change (stack (st4 v g sm h (OStr id n :: s))) with (OStr id n :: s).
  replace (zlen (OStr id n :: s) - 1 <? 0) with false by (unfold zlen; cbn [length]; lia).
  change (stack_at (st4 v g sm h (OStr id n :: s)) 1) with (@Ok obj (OStr id n)). reflexivity.
Qed.
End St4.

Section Lib.
Context {X : Type}.
Implicit Types v : vm X.
Variable fid : string -> Z.
Variable names : list string.
Variables (sid : str -> Z) (ws : list str) (sm0 : strman) (g0 : str -> obj).
Hypothesis HR0 : forall s, In s ws -> 0 <= sid s < 65536.
Hypothesis HW0 : forall s, In s ws -> sm_get sm0 (sid s) = Some s.

(** The strings [sm] and the global variables [g] of the VM, where those of the language are [G] and then [g0]. *)
Record inv (sm : strman) (g : pdict Z obj) (G : list (string * obj)) : Prop := {
  inv_room : room_for names sm;
  inv_keeps : keeps_strings sm0 sm;
  inv_stored : stored_globals g;
  inv_glob : forall y, In y ws -> glob_over g0 G y = sees g (sid y)
}.
Lemma inv_str sm sm' g G : inv sm g G -> room_for names sm' -> keeps_strings sm sm' -> inv sm' g G.
Proof. intros [A B C D] HR HK. split; auto. eapply keeps_strings_trans; eauto. Qed.
Lemma inv_set sm g G n id o : inv sm g G -> 0 <= id < 65536 -> sm_get sm id = Some (bs n) -> inv sm (gsym_set g id o) ((n, o) :: G).
Proof.
  intros [A B C D] Hi HG. split; auto. { apply stored_set. exact C. }
  intros y Hy. unfold sees. rewrite (PropsVmData.get_stored (fun x => x) 0) by exact C. pose proof (B _ _ (HR0 y Hy) (HW0 y Hy)) as Hy2. cbn [glob_over].
  pose proof (room_strings _ _ A) as HK.
  destruct (same (bs n) y) eqn:EQ; [apply GenStep.same_true in EQ; subst y|assert (Hne : y <> bs n) by (intros ->; rewrite same_refl in EQ; discriminate)].
  - assert (id = sid (bs n)). { pose proof (kept_id _ _ _ HK (HR0 _ Hy) Hy2) as Q1. pose proof (kept_id _ _ _ HK Hi HG) as Q2. congruence. }
    subst id. rewrite Z.eqb_refl. reflexivity.
  - destruct (Z.eqb_spec id (sid y)) as [->|_]; [rewrite HG in Hy2; congruence|]. exact (D y Hy).
Qed.

Lemma name_st4 v g sm h s n G : inv sm g G -> In n names ->
  exists sm' id, push_name (st4 v g sm h s) n = Ok (st4 v g sm' h (OStr id (bs n) :: s)) /\ 0 <= id < 65536 /\ sm_get sm' id = Some (bs n) /\ keeps_strings sm sm' /\ inv sm' g G.
Proof.
  intros HI Hn. destruct (name_ok (set_gsyms v g) sm h s n names (inv_room _ _ _ HI) Hn) as (sm' & id & E & Hi & HG & HK & HR & _).
  exists sm', id. split; [exact E|]. split; [exact Hi|]. split; [exact HG|]. split; [exact HK|]. eapply inv_str; eauto.
Qed.

(** ** Global functions *)
Lemma globals_ok v h s l : incl (map fst l) names -> forall sm g G, inv sm g G ->
  exists sm' g', global_registers fid l (st4 v g sm h s) = Ok (st4 v g' sm' h s) /\ keeps_strings sm sm' /\ inv sm' g' (rev (map (fun e => (fst e, cclosure fid (snd e))) l) ++ G).
Proof.
  induction l as [|[n f] l IH]; intros HN sm g G HI; cbn [global_registers map rev app]. { exists sm, g. split; [reflexivity|]. split; [apply keeps_strings_refl|exact HI]. }
  unfold global_register. cbn [fst snd]. destruct (name_st4 v g sm h s n G HI (HN n (or_introl eq_refl))) as (sm1 & id & E & Hi & HG & HK & HI1).
  rewrite E. cbn [bind]. rewrite st4_push, gstore_st4. cbn [bind].
  destruct (IH (fun m Hm => HN m (or_intror Hm)) sm1 _ _ (inv_set sm1 g G n id (cclosure fid f) HI1 Hi HG)) as (sm2 & g2 & E2 & HK2 & HI2).
  exists sm2, g2. split; [exact E2|]. split; [eapply keeps_strings_trans; eauto|]. rewrite <- app_assoc. exact HI2.
Qed.

(** ** Members of tables *)
Definition is_member (a : Z) (e : string * obj) (f : fld) : Prop := f_name f = bs (fst e) /\ f_val f = bind_self (OTab a) (snd e).
Definition good_names (l : list (string * obj)) : Prop := incl (map fst l) names /\ Forall (fun e => numlike (bs (fst e)) = false /\ snd e <> ONil) l.
Lemma put_ok v s a n o sm g G h t L : 0 <= a -> inv sm g G -> In n names -> nth_error h (Z.to_nat a) = Some t -> flds sm t L -> ~ In (bs n) (map f_name L) ->
  numlike (bs n) = false -> o <> ONil ->
  exists sm' t' f, (v1 <- push_name (st4 v g sm h (OTab a :: s)) n ;; vm_tput (push v1 o)) = Ok (st4 v g sm' (upd h (Z.to_nat a) t') s) /\
    keeps_strings sm sm' /\ inv sm' g G /\ flds sm' t' (L ++ [f]) /\ is_member a (n, o) f.
Proof.
  intros Ha HI Hn Ht HF HO Hl Ho. destruct (name_st4 v g sm h (OTab a :: s) n G HI Hn) as (sm1 & id & E & Hi & HG & HK & HI1).
  destruct (flds_set sm1 t L (bs n) id (bind_self (OTab a) o) (flds_mono _ _ _ _ HK HF) HO Hl Hi HG) as (t1 & Es & HF1).
  exists sm1, t1, (mkFld (bs n) id (bind_self (OTab a) o)). split; [|split; [exact HK|split; [exact HI1|split; [exact HF1|split; reflexivity]]]].
  rewrite E. cbn [bind]. rewrite st4_push. exact (tput_st3 (set_gsyms v g) sm1 h s o (OStr id (bs n)) a t t1 eq_refl Ha Ht Ho Es).
Qed.
Lemma dups_ok v s a : 0 <= a -> forall l, good_names l -> forall sm g G h t L, inv sm g G -> nth_error h (Z.to_nat a) = Some t -> flds sm t L ->
  NoDup (map f_name L ++ map (fun e => bs (fst e)) l) ->
  exists sm' t' L', dup_registers l (st4 v g sm h (OTab a :: s)) = Ok (st4 v g sm' (upd h (Z.to_nat a) t') (OTab a :: s)) /\
    keeps_strings sm sm' /\ inv sm' g G /\ flds sm' t' (L ++ L') /\ Forall2 (is_member a) l L'.
Proof.
  intros Ha. induction l as [|[n o] l IH]; intros [HN HM] sm g G h t L HI Ht HF HD; cbn [dup_registers].
  { exists sm, t, []. rewrite upd_id by auto. rewrite app_nil_r. split; [reflexivity|]. split; [apply keeps_strings_refl|]. auto. }
  inversion HM as [|? ? [M1 M2] M3]; subst. cbn [fst snd map] in *. unfold dup_register. cbn [fst snd]. rewrite st4_dup.
  destruct (put_ok v (OTab a :: s) a n o sm g G h t L Ha HI (HN n (or_introl eq_refl)) Ht HF) as (sm1 & t1 & f & E & HK & HI1 & HF1 & HE); auto.
  { apply NoDup_remove_2 in HD. intro H. apply HD. apply in_or_app. auto. }
  rewrite E. cbn [bind]. destruct (IH (conj (fun m Hm => HN m (or_intror Hm)) M3) sm1 g G (upd h (Z.to_nat a) t1) t1 (L ++ [f]) HI1) as (sm2 & t2 & L2 & E2 & HK2 & HI2 & HF2 & HE2); auto.
  - eapply upd_same; eauto.
  - rewrite map_app, <- app_assoc. cbn [map app]. destruct HE as [-> _]. exact HD.
  - exists sm2, t2, (f :: L2). rewrite E2, upd_upd. split; [reflexivity|]. split; [eapply keeps_strings_trans; eauto|]. split; [exact HI2|].
    split; [rewrite <- app_assoc in HF2; exact HF2|]. constructor; auto.
Qed.
Lemma tables_ok v s a : 0 <= a -> forall l, good_names l -> forall sm g G h t L, inv sm g G -> nth_error h (Z.to_nat a) = Some t -> flds sm t L ->
  NoDup (map f_name L ++ map (fun e => bs (fst e)) l) ->
  exists sm' t' L', table_registers (OTab a) l (st4 v g sm h s) = Ok (st4 v g sm' (upd h (Z.to_nat a) t') s) /\
    keeps_strings sm sm' /\ inv sm' g G /\ flds sm' t' (L ++ L') /\ Forall2 (is_member a) l L'.
Proof.
  intros Ha. induction l as [|[n o] l IH]; intros [HN HM] sm g G h t L HI Ht HF HD; cbn [table_registers].
  { exists sm, t, []. rewrite upd_id by auto. rewrite app_nil_r. split; [reflexivity|]. split; [apply keeps_strings_refl|]. auto. }
  inversion HM as [|? ? [M1 M2] M3]; subst. cbn [fst snd map] in *. unfold table_register. cbn [fst snd]. rewrite st4_push.
  destruct (put_ok v s a n o sm g G h t L Ha HI (HN n (or_introl eq_refl)) Ht HF) as (sm1 & t1 & f & E & HK & HI1 & HF1 & HE); auto.
  { apply NoDup_remove_2 in HD. intro H. apply HD. apply in_or_app. auto. }
  rewrite E. cbn [bind]. destruct (IH (conj (fun m Hm => HN m (or_intror Hm)) M3) sm1 g G (upd h (Z.to_nat a) t1) t1 (L ++ [f]) HI1) as (sm2 & t2 & L2 & E2 & HK2 & HI2 & HF2 & HE2); auto.
  - eapply upd_same; eauto.
  - rewrite map_app, <- app_assoc. cbn [map app]. destruct HE as [-> _]. exact HD.
  - exists sm2, t2, (f :: L2). rewrite E2, upd_upd. split; [reflexivity|]. split; [eapply keeps_strings_trans; eauto|]. split; [exact HI2|].
    split; [rewrite <- app_assoc in HF2; exact HF2|]. constructor; auto.
Qed.
Lemma registers_methods p a l : forall v, function_registers (fun n => fid (p ++ n)%string) (OTab a) l v = table_registers (OTab a) (methods_of fid p l) v.
Proof.
  induction l as [|n l IH]; intro v; [reflexivity|]. cbn [function_registers methods_of map table_registers].
  change (function_register (fun n => fid (p ++ n)%string) (OTab a) v n) with (table_register (OTab a) v (n, cclosure fid (p ++ n))).
  destruct (table_register _ _ _) as [w| | |]; cbn [bind]; [apply IH|reflexivity..].
Qed.

(** ** The libraries *)
Lemma new_nth (h : list table) : nth_error (h ++ [tab_new]) (Z.to_nat (zlen h)) = Some tab_new.
Proof. unfold zlen. rewrite Nat2Z.id, nth_error_app2, Nat.sub_diag by lia. reflexivity. Qed.
Lemma upd_mid {A} (a : list A) x b y : upd (a ++ x :: b) (length a) y = a ++ y :: b.
Proof. induction a; cbn; congruence. Qed.
Lemma new_upd (h : list table) t : upd (h ++ [tab_new]) (Z.to_nat (zlen h)) t = h ++ [t].
Proof. unfold zlen. rewrite Nat2Z.id. apply upd_snoc. Qed.
Definition fresh (l : list (string * obj)) : Prop := good_names l /\ NoDup (map (fun e => bs (fst e)) l).
(** The shape of buzzvstig_register and buzzswarm_register. *)
Lemma dup_library v n l sm g G h : inv sm g G -> In n names -> fresh l ->
  exists sm' g' t L, (v1 <- push_name (st4 v g sm h []) n ;; v2 <- dup_registers l (vm_pusht v1) ;; vm_gstore v2) = Ok (st4 v g' sm' (h ++ [t]) []) /\
    keeps_strings sm sm' /\ inv sm' g' ((n, OTab (zlen h)) :: G) /\ flds sm' t L /\ Forall2 (is_member (zlen h)) l L.
Proof.
  intros HI Hn [Hl HD]. destruct (name_st4 v g sm h [] n G HI Hn) as (sm1 & id & E & Hi & HG & HK & HI1). rewrite E. cbn [bind]. rewrite st4_pusht.
  destruct (dups_ok v [OStr id (bs n)] (zlen h) ltac:(unfold zlen; lia) l Hl sm1 g G (h ++ [tab_new]) tab_new [] HI1 (new_nth h) (flds_new sm1) HD) as (sm2 & t & L & E2 & HK2 & HI2 & HF & HM).
  rewrite E2. cbn [bind]. rewrite new_upd, gstore_st4. exists sm2, (gsym_set g id (OTab (zlen h))), t, L. split; [reflexivity|]. split; [eapply keeps_strings_trans; eauto|]. split; [apply inv_set; auto|]. auto.
Qed.
(** The shape of buzzneighbors_new, of buzzstring_register and of the first part of buzzio_register. *)
Lemma table_library v n l sm g G h : inv sm g G -> In n names -> fresh l ->
  exists sm' g' t L id, (v2 <- table_registers (OTab (zlen h)) l (st4 v g sm (h ++ [tab_new]) []) ;; v3 <- push_name v2 n ;; vm_gstore (push v3 (OTab (zlen h)))) = Ok (st4 v g' sm' (h ++ [t]) []) /\
    keeps_strings sm sm' /\ inv sm' g' ((n, OTab (zlen h)) :: G) /\ flds sm' t L /\ Forall2 (is_member (zlen h)) l L /\
    0 <= id < 65536 /\ sm_get sm' id = Some (bs n) /\ sees g' id = OTab (zlen h).
Proof.
  intros HI Hn [Hl HD].
  destruct (tables_ok v [] (zlen h) ltac:(unfold zlen; lia) l Hl sm g G (h ++ [tab_new]) tab_new [] HI (new_nth h) (flds_new sm) HD) as (sm2 & t & L & E2 & HK2 & HI2 & HF & HM).
  rewrite E2. cbn [bind]. rewrite new_upd. destruct (name_st4 v g sm2 (h ++ [t]) [] n G HI2 Hn) as (sm3 & id & E & Hi & HG & HK & HI3). rewrite E. cbn [bind]. rewrite st4_push, gstore_st4.
  exists sm3, (gsym_set g id (OTab (zlen h))), t, L, id. split; [reflexivity|]. split; [eapply keeps_strings_trans; eauto|]. split; [apply inv_set; auto|]. split; [eapply flds_mono; eauto|].
  split; [exact HM|]. split; [exact Hi|]. split; [exact HG|]. unfold sees. rewrite (PropsVmData.get_stored (fun x => x) 0) by apply (inv_stored _ _ _ HI3). rewrite Z.eqb_refl. reflexivity.
Qed.
Ltac split_all := repeat match goal with |- _ /\ _ => split end.
(** buzzmath_register. *)
Lemma math_ok v sm g G h : inv sm g G -> In "math"%string names -> In "pi"%string names -> In "rng"%string names ->
  fresh (methods_of fid "buzzmath_" math_names) -> fresh (methods_of fid "buzzmath_rng_" rng_names) ->
  exists sm' g' t t2 L L2, math_register fid (st4 v g sm h []) = Ok (st4 v g' sm' (h ++ [t; t2]) []) /\
    keeps_strings sm sm' /\ inv sm' g' (("math"%string, OTab (zlen h)) :: G) /\
    flds sm' t L /\ Forall2 (is_member (zlen h)) (methods_of fid "buzzmath_" math_names ++ [("pi"%string, pi); ("rng"%string, OTab (zlen h + 1))]) L /\
    flds sm' t2 L2 /\ Forall2 (is_member (zlen h + 1)) (methods_of fid "buzzmath_rng_" rng_names) L2.
Proof.
  intros HI N1 N2 N3 [Hl HD] [Hl2 HD2]. unfold math_register.
  assert (Ha : 0 <= zlen h) by (unfold zlen; lia).
  destruct (name_st4 v g sm h [] "math" G HI N1) as (sm1 & id & E & Hi & HG & HK1 & HI1). rewrite E. cbn [bind]. rewrite st4_pusht.
  destruct (dups_ok v [OStr id (bs "math")] (zlen h) Ha _ Hl sm1 g G (h ++ [tab_new]) tab_new [] HI1 (new_nth h) (flds_new sm1) HD) as (sm2 & t & L & E2 & HK2 & HI2 & HF & HM).
  rewrite E2. cbn [bind]. rewrite new_upd. cbn [app] in HF.
  assert (HLn : map f_name L = map bs math_names).
  { clear - HM. transitivity (map (fun e : string * obj => bs (fst e)) (methods_of fid "buzzmath_" math_names)); [|unfold methods_of; rewrite map_map; reflexivity]. induction HM as [|e f l L [A _] _ IH]; [reflexivity|]. cbn [map]. rewrite A, IH. reflexivity. }
  assert (Hn : forall t, nth_error (h ++ [t]) (Z.to_nat (zlen h)) = Some t) by (intro; unfold zlen; rewrite Nat2Z.id, nth_error_app2, Nat.sub_diag by lia; reflexivity).
  unfold dup_register. rewrite st4_dup. cbn [fst snd].
  destruct (put_ok v [OTab (zlen h); OStr id (bs "math")] (zlen h) "pi" pi sm2 g G (h ++ [t]) t L Ha HI2 N2 (Hn t) HF) as (sm3 & t3 & f & E3 & HK3 & HI3 & HF3 & HM3); [|reflexivity|discriminate|].
  { rewrite HLn. intro Q. vm_compute in Q. repeat (destruct Q as [Q|Q]; [discriminate Q|]). exact Q. }
  rewrite E3. cbn [bind]. rewrite st4_dup. replace (upd (h ++ [t]) (Z.to_nat (zlen h)) t3) with (h ++ [t3]) by (unfold zlen; rewrite Nat2Z.id, upd_snoc; reflexivity).
  destruct (name_st4 v g sm3 (h ++ [t3]) [OTab (zlen h); OTab (zlen h); OStr id (bs "math")] "rng" G HI3 N3) as (sm4 & id4 & E4 & Hi4 & HG4 & HK4 & HI4). rewrite E4. cbn [bind]. rewrite st4_pusht.
  assert (Hz : zlen (h ++ [t3]) = zlen h + 1) by (rewrite zlen_app; reflexivity).
  destruct (dups_ok v [OStr id4 (bs "rng"); OTab (zlen h); OTab (zlen h); OStr id (bs "math")] (zlen (h ++ [t3])) ltac:(lia) _ Hl2 sm4 g G ((h ++ [t3]) ++ [tab_new]) tab_new [] HI4 (new_nth _) (flds_new sm4) HD2)
    as (sm5 & t5 & L5 & E5 & HK5 & HI5 & HF5 & HM5). rewrite E5. cbn [bind]. rewrite new_upd. rewrite Hz in *.
  assert (HF4 : flds sm5 t3 (L ++ [f])) by (eapply flds_mono; [|exact HF3]; eapply keeps_strings_trans; eauto).
  destruct (flds_set sm5 t3 (L ++ [f]) (bs "rng") id4 (OTab (zlen h + 1)) HF4) as (t6 & Es & HF6); [|reflexivity|exact Hi4|apply HK5; auto|].
  { rewrite map_app, HLn. cbn [map]. destruct HM3 as [-> _]. intro Q. vm_compute in Q. repeat (destruct Q as [Q|Q]; [discriminate Q|]). exact Q. }
  unfold st4. rewrite (tput_st3 (set_gsyms v g) sm5 ((h ++ [t3]) ++ [t5]) [OTab (zlen h); OStr id (bs "math")] (OTab (zlen h + 1)) (OStr id4 (bs "rng")) (zlen h) t3 t6 eq_refl Ha); [|rewrite <- app_assoc; unfold zlen; rewrite Nat2Z.id, nth_error_app2, Nat.sub_diag by lia; reflexivity|discriminate|exact Es].
  cbn [bind]. fold (st4 v g sm5 (upd ((h ++ [t3]) ++ [t5]) (Z.to_nat (zlen h)) t6) [OTab (zlen h); OStr id (bs "math")]). rewrite gstore_st4.
  exists sm5, (gsym_set g id (OTab (zlen h))), t6, t5, ((L ++ [f]) ++ [mkFld (bs "rng") id4 (OTab (zlen h + 1))]), L5.
  split. { f_equal. f_equal. rewrite <- app_assoc. unfold zlen. rewrite Nat2Z.id. cbn [app]. rewrite upd_mid. reflexivity. }
  assert (HKK : keeps_strings sm1 sm5) by (repeat (eapply keeps_strings_trans; [eassumption|]); apply keeps_strings_refl).
  split; [eapply keeps_strings_trans; eauto|]. split; [apply inv_set; auto|]. split; [exact HF6|]. split; [|split; [exact HF5|exact HM5]].
  rewrite <- app_assoc. apply Forall2_app; [exact HM|]. constructor; [exact HM3|]. constructor; [split; reflexivity|constructor].
Qed.
(** buzzio_register. *)
Lemma io_ok v sm g G h : inv sm g G -> In "io"%string names -> In "errno"%string names -> In "error_message"%string names -> In "No error"%string names ->
  fresh (methods_of fid "buzzio_" io_names) ->
  exists sm' g' t L id, io_register fid (st4 v g sm h []) = Ok (st4 v g' sm' (h ++ [t]) []) /\
    keeps_strings sm sm' /\ inv sm' g' (("io"%string, OTab (zlen h)) :: G) /\ 0 <= id < 65536 /\ sm_get sm' id = Some (bs "No error") /\
    flds sm' t L /\ Forall2 (is_member (zlen h)) (methods_of fid "buzzio_" io_names ++ [("errno"%string, OInt 0); ("error_message"%string, OStr id (bs "No error"))]) L.
Proof.
  intros HI N1 N2 N3 N4 HL. unfold io_register. rewrite st4_new.
  assert (Ha : 0 <= zlen h) by (unfold zlen; lia).
  destruct (table_library v "io" _ sm g G h HI N1 HL) as (sm1 & g1 & t & L & id & E & HK1 & HI1 & HF & HM & Hi & HG & HS).
  destruct (table_registers _ _ _) as [w| | |]; cbn [bind] in E |- *; try discriminate. destruct (push_name w "io") as [w2| | |]; cbn [bind] in E |- *; try discriminate. rewrite E. cbn [bind]. clear E w w2.
  assert (HLn : map f_name L = map bs io_names).
  { clear - HM. transitivity (map (fun e : string * obj => bs (fst e)) (methods_of fid "buzzio_" io_names)); [|unfold methods_of; rewrite map_map; reflexivity]. induction HM as [|e f l L [A _] _ IH]; [reflexivity|]. cbn [map]. rewrite A, IH. reflexivity. }
  assert (Hn : forall t, nth_error (h ++ [t]) (Z.to_nat (zlen h)) = Some t) by (intro; unfold zlen; rewrite Nat2Z.id, nth_error_app2, Nat.sub_diag by lia; reflexivity).
  assert (Hu : forall t t', upd (h ++ [t]) (Z.to_nat (zlen h)) t' = h ++ [t']) by (intros; unfold zlen; rewrite Nat2Z.id, upd_snoc; reflexivity).
  unfold io_no_error. destruct (name_ok (set_gsyms v g1) sm1 (h ++ [t]) [] "io" names (inv_room _ _ _ HI1) N1) as (sm2 & id2 & E2 & Hi2 & HG2 & HK2 & HR2 & HU2).
  assert (id = id2) by (apply HU2; auto). subst id2. pose proof (inv_str _ _ _ _ HI1 HR2 HK2) as HI2. unfold st4 at 1. rewrite E2. cbn [bind].
  fold (st4 v g1 sm2 (h ++ [t]) [OStr id (bs "io")]). rewrite gload_st4, HS. cbn [bind].
  change (stack_at (st4 v g1 sm2 (h ++ [t]) [OTab (zlen h)]) 1) with (@Ok obj (OTab (zlen h))). cbn [bind]. rewrite st4_push.
  destruct (put_ok v [OTab (zlen h)] (zlen h) "errno" (OInt 0) sm2 g1 _ (h ++ [t]) t L Ha HI2 N2 (Hn t) (flds_mono _ _ _ _ HK2 HF)) as (sm3 & t3 & f & E3 & HK3 & HI3 & HF3 & HM3); [|reflexivity|discriminate|].
  { rewrite HLn. intro Q. vm_compute in Q. repeat (destruct Q as [Q|Q]; [discriminate Q|]). exact Q. }
  destruct (push_name (st4 v g1 sm2 (h ++ [t]) [OTab (zlen h); OTab (zlen h)]) "errno") as [w| | |]; cbn [bind] in E3 |- *; try discriminate. rewrite E3. cbn [bind]. clear E3 w. rewrite Hu.
  destruct (name_st4 v g1 sm3 (h ++ [t3]) [OTab (zlen h)] "error_message" _ HI3 N3) as (sm4 & id4 & E4 & Hi4 & HG4 & HK4 & HI4). rewrite E4. cbn [bind].
  change (v_str (st4 v g1 sm4 (h ++ [t3]) [OStr id4 (bs "error_message"); OTab (zlen h)])) with sm4.
  destruct (register_room names sm4 "No error" false (inv_room _ _ _ HI4) N4) as (sm5 & id5 & E5 & Hi5 & HG5 & HK5 & HR5 & _). rewrite E5. cbn [bind].
  unfold vm_pushs. rewrite wrap16_id by exact Hi5. change (v_str (set_str (st4 v g1 sm4 (h ++ [t3]) [OStr id4 (bs "error_message"); OTab (zlen h)]) sm5)) with sm5. rewrite HG5.
  change (push (set_str (st4 v g1 sm4 (h ++ [t3]) [OStr id4 (bs "error_message"); OTab (zlen h)]) sm5) (OStr id5 (bs "No error"))) with (st3 (set_gsyms v g1) sm5 (h ++ [t3]) [OStr id5 (bs "No error"); OStr id4 (bs "error_message"); OTab (zlen h)]).
  pose proof (inv_str _ _ _ _ HI4 HR5 HK5) as HI5.
  assert (HF5 : flds sm5 t3 (L ++ [f])) by (eapply flds_mono; [|exact HF3]; eapply keeps_strings_trans; eauto).
  destruct (flds_set sm5 t3 (L ++ [f]) (bs "error_message") id4 (OStr id5 (bs "No error")) HF5) as (t6 & Es & HF6); [|reflexivity|exact Hi4|apply HK5; auto|].
  { rewrite map_app, HLn. cbn [map]. destruct HM3 as [-> _]. intro Q. vm_compute in Q. repeat (destruct Q as [Q|Q]; [discriminate Q|]). exact Q. }
  rewrite (tput_st3 (set_gsyms v g1) sm5 (h ++ [t3]) [] (OStr id5 (bs "No error")) (OStr id4 (bs "error_message")) (zlen h) t3 t6 eq_refl Ha (Hn t3) ltac:(discriminate) Es). rewrite Hu.
  exists sm5, g1, t6, ((L ++ [f]) ++ [mkFld (bs "error_message") id4 (OStr id5 (bs "No error"))]), id5. split; [reflexivity|].
  assert (HKK : keeps_strings sm1 sm5) by (repeat (eapply keeps_strings_trans; [eassumption|]); apply keeps_strings_refl).
  split; [eapply keeps_strings_trans; eauto|]. split; [exact HI5|]. split; [exact Hi5|]. split; [exact HG5|]. split; [exact HF6|].
  rewrite <- app_assoc. apply Forall2_app; [exact HM|]. constructor; [exact HM3|]. constructor; [split; reflexivity|constructor].
Qed.
End Lib.
