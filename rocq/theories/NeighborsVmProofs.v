(** Lemmas for the methods of neighbors. *)
From Coq Require Import String.
From Verif Require Import Base ListLemmas Float Dict PDict PDictKeys Strman StrmanSpec StrmanProofs Obj ObjSpec ObjProofs Instr Vm VmSpec VmProofs
  PropsVmData Text Strlib CFunSpec CFunProofs WireProofs PropsSwarmExec TableLib TableLibSpec TableLibProofs PropsTableLib NeighborsVm NeighborsVmSpec.
Local Open Scope Z_scope.
Local Open Scope list_scope.

(** ** Strings *)
Lemma room_good l sm : room_for l sm -> good_strings sm.
Proof. intros [A (new & _ & B)]. split; [exact A|]. unfold zlen in B. lia. Qed.
Lemma room_incl l l' sm : incl l' l -> room_for l sm -> room_for l' sm.
Proof. intros HI [A (new & B & C)]. split; [exact A|]. exists new. split; [|exact C]. intros n Hn. apply B, HI, Hn. Qed.
Lemma keeps_strings_refl sm : keeps_strings sm sm. Proof. intros i t _ H. exact H. Qed.
Lemma keeps_strings_trans a b c : keeps_strings a b -> keeps_strings b c -> keeps_strings a c.
Proof. intros H1 H2 i t Hi H. auto. Qed.
Lemma remove_len (n : string) l : In n l -> zlen (remove string_dec n l) + 1 <= zlen l.
Proof. intro H. pose proof (remove_length_lt string_dec l n H). unfold zlen. lia. Qed.
Lemma register_room l sm n p : room_for l sm -> In n l ->
  exists sm' id, sm_register sm_fuel sm (bs n) p = Ok (sm', id) /\ 0 <= id < 65536 /\ sm_get sm' id = Some (bs n) /\ keeps_strings sm sm' /\ room_for l sm' /\
    (forall j, 0 <= j < 65536 -> sm_get sm j = Some (bs n) -> j = id).
Proof.
  intros HR Hn. pose proof (room_good _ _ HR) as HG.
  destruct (register_good sm (bs n) p HG) as (sm' & id & E & Hi & Hg & HK & HO). exists sm', id.
  split; [exact E|]. split; [exact Hi|]. split; [exact Hg|]. split; [exact HK|].
  assert (HU : forall j, 0 <= j < 65536 -> sm_get sm j = Some (bs n) -> j = id) by (intros j Hj H; eapply get_unique; eauto).
  split; [|exact HU]. split; [exact HO|]. destruct HR as [_ (new & HN & HL)]. destruct (good_inv _ HG) as (M & HI & HD).
  destruct (s2i_get (str2id sm) (bs n)) as [i|] eqn:ES.
  - exists new. split. { intros m Hm. destruct (HN m Hm) as [H|(j & Hj & H)]; [left; exact H|]. right. exists j. auto. }
    replace (sm_live sm') with (sm_live sm); [exact HL|]. unfold sm_register in E. rewrite ES in E. destruct p.
    + destruct (i2s_get _ _); inversion E. reflexivity.
    + inversion E. reflexivity.
  - assert (Hnew : In n new).
    { destruct (HN n Hn) as [H|(j & Hj & H)]; [exact H|]. exfalso. unfold sm_get in H. destruct (i2s_get (id2str sm) j) as [[u q]|] eqn:E2; [|discriminate].
      inversion H; subst u. apply (si_i2s _ _ HI) in E2; auto. rewrite (si_s2i _ _ HI), E2 in ES. discriminate. }
    exists (remove string_dec n new). pose proof (remove_len _ _ Hnew). pose proof (register_live _ _ _ _ _ (si_wf1 _ _ HI) E). split; [|lia].
    intros m Hm. destruct (string_dec m n) as [->|Hne]; [right; exists id; auto|]. destruct (HN m Hm) as [H1|(j & Hj & H1)].
    + left. apply in_in_remove; auto.
    + right. exists j. auto.
Qed.

(** ** States *)
Section St.
Context {X : Type}.
Notation vm := (vm X).
Implicit Types v : vm.
Definition st3 v (sm : strman) (h : list table) (s : list obj) : vm :=
  mkVm (v_pc v) (v_oldpc v) (s :: tl (v_stacks v)) (v_lsymts v) (v_gsyms v) h sm (v_swstk v) (v_state v) (v_error v) (v_ext v).
Lemma st3_self v s r : v_stacks v = s :: r -> v = st3 v (v_str v) (v_heap v) s.
Proof. intro H. unfold st3. rewrite H. cbn [tl]. rewrite <- H. destruct v; reflexivity. Qed.
Lemma st3_push v sm h s o : push (st3 v sm h s) o = st3 v sm h (o :: s). Proof. reflexivity. Qed.

Lemma push_st3 v s r o : v_stacks v = s :: r -> push v o = st3 v (v_str v) (v_heap v) (o :: s).
Proof. intro H. unfold push, set_stack, set_stacks, stack, st3. rewrite H. reflexivity. Qed.
Lemma name_ok v sm h s n l : room_for l sm -> In n l ->
  exists sm' id, push_name (st3 v sm h s) n = Ok (st3 v sm' h (OStr id (bs n) :: s)) /\ 0 <= id < 65536 /\ sm_get sm' id = Some (bs n) /\
    keeps_strings sm sm' /\ room_for l sm' /\ (forall j, 0 <= j < 65536 -> sm_get sm j = Some (bs n) -> j = id).
Proof.
  intros HR Hn. destruct (register_room l sm n true HR Hn) as (sm' & id & E & Hi & Hg & HK & HR' & HU). exists sm', id.
  split; [|auto 6]. unfold push_name. cbn [v_str st3]. rewrite E. cbn [bind]. unfold vm_pushs. rewrite wrap16_id by auto. cbn [set_str v_str]. rewrite Hg. reflexivity.
Qed.
Lemma tput_st3 v sm h s x k a t t' : is_key k = true -> 0 <= a -> nth_error h (Z.to_nat a) = Some t -> x <> ONil ->
  tab_set t k (bind_self (OTab a) x) = Ok t' -> vm_tput (st3 v sm h (x :: k :: OTab a :: s)) = Ok (st3 v sm (upd h (Z.to_nat a) t') s).
Proof.
  intros Hk Ha Ht Hx Hs. unfold vm_tput, stack_assert, type_assert. change (stack (st3 v sm h (x :: k :: OTab a :: s))) with (x :: k :: OTab a :: s).
  replace (zlen (x :: k :: OTab a :: s) - 3 <? 0) with false by (unfold zlen; cbn [length]; lia).
  change (stack_at (st3 v sm h (x :: k :: OTab a :: s)) 3) with (@Ok obj (OTab a)). cbn [bind otype]. change (T_TABLE =? T_TABLE) with true. cbv iota.
  rewrite Hk. replace (tab_at _ a) with (Ok t) by (unfold tab_at; replace (0 <=? a) with true by lia; cbn; rewrite Ht; reflexivity). cbn [bind].
  destruct x; try congruence; rewrite Hs; reflexivity.
Qed.
Lemma tget_st3 v sm h s k a t r : is_key k = true -> 0 <= a -> nth_error h (Z.to_nat a) = Some t -> tab_get t k = Ok r ->
  vm_tget (st3 v sm h (k :: OTab a :: s)) = Ok (st3 v sm h (match r with Some o => o | None => ONil end :: s)).
Proof.
  intros Hk Ha Ht Hs. unfold vm_tget, stack_assert, type_assert. change (stack (st3 v sm h (k :: OTab a :: s))) with (k :: OTab a :: s).
  replace (zlen (k :: OTab a :: s) - 2 <? 0) with false by (unfold zlen; cbn [length]; lia).
  change (stack_at (st3 v sm h (k :: OTab a :: s)) 2) with (@Ok obj (OTab a)). cbn [bind otype]. change (T_TABLE =? T_TABLE) with true. cbv iota.
  rewrite Hk. replace (tab_at _ a) with (Ok t) by (unfold tab_at; replace (0 <=? a) with true by lia; cbn; rewrite Ht; reflexivity). cbn [bind]. rewrite Hs. reflexivity.
Qed.
End St.

(** ** Tables with string keys *)
Lemma NoDup_snoc {B} (a : list B) x : NoDup a -> ~ In x a -> NoDup (a ++ [x]).
Proof.
  induction a as [|y a IH]; cbn; intros Ha Hx. { constructor; [intros []|constructor]. }
  inversion Ha; subst. constructor; [|apply IH; tauto]. rewrite in_app_iff. intros [H|[H|[]]]; [auto|apply Hx; auto].
Qed.
Record fld : Type := mkFld { f_name : str; f_id : Z; f_val : obj }.
Definition fld_op (f : fld) : tab_op := TabSet (OStr (f_id f) (f_name f)) (f_val f).
Definition fld_ok (sm : strman) (f : fld) : Prop :=
  0 <= f_id f < 65536 /\ sm_get sm (f_id f) = Some (f_name f) /\ numlike (f_name f) = false.
Record flds (sm : strman) (t : table) (l : list fld) : Prop := {
  fl_hist : tab_history tab_new (map fld_op l) = Ok t;
  fl_ok : Forall (fld_ok sm) l;
  fl_names : NoDup (map f_name l)
}.
Lemma flds_mono sm sm' t l : keeps_strings sm sm' -> flds sm t l -> flds sm' t l.
Proof.
  intros HK [A B C]. split; auto. eapply Forall_impl; [|exact B]. intros f (H1 & H2 & H3). split; auto.
Qed.
Lemma flds_new sm : flds sm tab_new []. Proof. split; constructor. Qed.

Definition sid_in (l : list fld) (d : Z) (s : str) : Z :=
  match find (fun f => if list_eq_dec Z.eq_dec (f_name f) s then true else false) l with Some f => f_id f | None => d end.
Lemma sid_in_ok l d f : NoDup (map f_name l) -> In f l -> sid_in l d (f_name f) = f_id f.
Proof.
  unfold sid_in. induction l as [|g l IH]; intros HN HI; [destruct HI|]. cbn [find]. inversion HN as [|? ? H1 H2]; subst.
  destruct (list_eq_dec _ _ _) as [E|E].
  - destruct HI as [->|HI]; [reflexivity|]. exfalso. apply H1. rewrite E. apply in_map_iff. exists f. auto.
  - destruct HI as [->|HI]; [congruence|]. apply IH; auto.
Qed.
Lemma sid_in_out l d s : ~ In s (map f_name l) -> sid_in l d s = d.
Proof.
  unfold sid_in. induction l as [|g l IH]; intro HN; [reflexivity|]. cbn [find].
  destruct (list_eq_dec _ _ _) as [E|E]; [exfalso; apply HN; left; auto|]. apply IH. intro H. apply HN. right. auto.
Qed.

Lemma flds_build sidof : forall l t0, twf table_hash (key_class false sidof) t0 ->
  Forall (fun f : fld => key_class false sidof (OStr (f_id f) (f_name f)) = true) l -> NoDup (map f_name l) ->
  exists t, tab_history t0 (map fld_op l) = Ok t /\ twf table_hash (key_class false sidof) t /\
    (forall f, In f l -> tab_get t (OStr (f_id f) (f_name f)) = Ok (Some (f_val f))) /\
    (forall k, key_class false sidof k = true -> (forall f, In f l -> same_key (OStr (f_id f) (f_name f)) k = false) -> tab_get t k = tab_get t0 k).
Proof.
  pose proof (good_class false sidof) as G.
  induction l as [|f l IH]; intros t0 HT HF HN; cbn [map tab_history]. { exists t0. split; [reflexivity|]. split; [exact HT|]. split; [intros f []|auto]. }
  inversion HF as [|? ? Hf HF']; subst. inversion HN as [|? ? HN1 HN2]; subst. cbn [fld_op].
  destruct (tab_set_get _ _ _ G t0 _ (f_val f) (OStr (f_id f) (f_name f)) HT Hf Hf) as (t1 & E1 & W1 & r1 & _ & G1).
  fold (tab_set t0 (OStr (f_id f) (f_name f)) (f_val f)) in E1. unfold fld_op at 1. rewrite E1. cbn [bind].
  destruct (IH t1 W1 HF' HN2) as (t & E2 & W2 & I1 & I2). exists t. split; [exact E2|]. split; [exact W2|]. split.
  - intros g [<-|Hg]; [|auto]. rewrite I2; auto.
    + unfold tab_get. rewrite G1. cbn [same_key]. destruct (list_eq_dec _ _ _); [reflexivity|congruence].
    + intros g Hg. cbn [same_key]. destruct (list_eq_dec _ _ _) as [e|]; [|reflexivity]. exfalso. apply HN1. rewrite <- e. apply in_map_iff. eauto.
  - intros k Hk HO. rewrite I2; auto; [|intros g Hg; apply HO; right; auto].
    destruct (tab_set_get _ _ _ G t0 _ (f_val f) k HT Hf Hk) as (t2 & E3 & _ & r & Er & G2). unfold tab_set in E1. rewrite E1 in E3. inversion E3; subst t2.
    unfold tab_get. rewrite G2, Er, (HO f) by (left; auto). reflexivity.
Qed.
Lemma flds_class sm l d : Forall (fld_ok sm) l -> NoDup (map f_name l) ->
  Forall (fun f : fld => key_class false (sid_in l d) (OStr (f_id f) (f_name f)) = true) l.
Proof.
  intros HO HN. rewrite Forall_forall in *. intros f Hf. destruct (HO f Hf) as (A & _ & C). cbn. rewrite (sid_in_ok l d f HN Hf), C.
  rewrite Z.eqb_refl. cbn. lia.
Qed.
Lemma flds_get sm t l f : flds sm t l -> In f l -> tab_get t (OStr (f_id f) (f_name f)) = Ok (Some (f_val f)).
Proof.
  intros [A B C] Hf. pose proof (good_class false (sid_in l 0)) as G.
  destruct (flds_build (sid_in l 0) l tab_new (twf_new _ _ _ G) (flds_class sm l 0 B C) C) as (t' & E & _ & I & _).
  rewrite A in E. inversion E; subst t'. auto.
Qed.
Lemma flds_none sm t l s sid : flds sm t l -> ~ In s (map f_name l) -> numlike s = false -> 0 <= sid < 65536 ->
  tab_get t (OStr sid s) = Ok None.
Proof.
  intros [A B C] Hs Hn Hi. pose proof (good_class false (sid_in l sid)) as G.
  destruct (flds_build (sid_in l sid) l tab_new (twf_new _ _ _ G) (flds_class sm l sid B C) C) as (t' & E & _ & _ & I).
  rewrite A in E. inversion E; subst t'.
  assert (Hk : key_class false (sid_in l sid) (OStr sid s) = true).
  { cbn. rewrite (sid_in_out l sid s Hs), Hn, Z.eqb_refl. cbn. lia. }
  rewrite (I _ Hk); [apply (new_get false (sid_in l sid)); exact Hk|].
  intros f Hf. cbn [same_key]. destruct (list_eq_dec _ _ _) as [e|]; [|reflexivity]. exfalso. apply Hs. rewrite <- e. apply in_map_iff. eauto.
Qed.
Lemma flds_set sm t l s sid o : flds sm t l -> ~ In s (map f_name l) -> numlike s = false -> 0 <= sid < 65536 ->
  sm_get sm sid = Some s -> exists t', tab_set t (OStr sid s) o = Ok t' /\ flds sm t' (l ++ [mkFld s sid o]).
Proof.
  intros [A B C] Hs Hn Hi Hg. set (l' := l ++ [mkFld s sid o]).
  assert (B' : Forall (fld_ok sm) l') by (apply Forall_app; split; [exact B|]; constructor; [split; auto|constructor]).
  assert (C' : NoDup (map f_name l')).
  { unfold l'. rewrite map_app. apply NoDup_snoc; auto. }
  pose proof (good_class false (sid_in l' 0)) as G.
  destruct (flds_build (sid_in l' 0) l' tab_new (twf_new _ _ _ G) (flds_class sm l' 0 B' C') C') as (t' & E & _ & _ & I).
  exists t'. split; [|split; auto]. unfold l' in E. rewrite map_app, history_app, A in E. cbn [bind map tab_history fld_op f_name f_id f_val] in E.
  destruct (tab_set t (OStr sid s) o) as [t1| | |]; cbn [bind] in E; try discriminate. inversion E. reflexivity.
Qed.

(** ** make_table *)
Lemma upd_upd {A} (l : list A) n x y : upd (upd l n x) n y = upd l n y.
Proof. revert n. induction l; intros [|n]; cbn; congruence. Qed.
Lemma upd_id {A} (l : list A) n x : nth_error l n = Some x -> upd l n x = l.
Proof. revert n. induction l; intros [|n]; cbn; intro H; try discriminate; [inversion H; reflexivity|]. f_equal. auto. Qed.
Lemma upd_snoc {A} (l : list A) x y : upd (l ++ [x]) (length l) y = l ++ [y].
Proof. induction l; cbn; congruence. Qed.

Section Make.
Context {X : Type}.
Implicit Types v : vm X.
Variable fid : string -> Z.
Definition method_of (a : Z) (n : string) (f : fld) : Prop := f_name f = bs n /\ f_val f = OClos false (sign32 (fid n)) [OTab a].
Lemma regs_ok names v s a : 0 <= a -> forall l sm h t L, nth_error h (Z.to_nat a) = Some t -> room_for names sm -> incl l names ->
  flds sm t L -> NoDup (map f_name L ++ map bs l) -> Forall (fun n => numlike (bs n) = false) l ->
  exists sm' t' L', function_registers fid (OTab a) l (st3 v sm h s) = Ok (st3 v sm' (upd h (Z.to_nat a) t') s) /\ keeps_strings sm sm' /\ room_for names sm' /\
    flds sm' t' (L ++ L') /\ Forall2 (method_of a) l L'.
Proof.
  intro Ha. induction l as [|n l IH]; intros sm h t L Ht HR HI HF HN HM; cbn [function_registers].
  { exists sm, t, []. rewrite upd_id by auto. rewrite app_nil_r. split; [reflexivity|]. split; [apply keeps_strings_refl|]. auto. }
  unfold function_register. rewrite st3_push. destruct (name_ok v sm h (OTab a :: s) n names HR (HI n (or_introl eq_refl))) as (sm1 & id & E1 & Hid & Hg & HK1 & HR1 & _).
  rewrite E1. cbn [bind]. unfold vm_pushc. rewrite st3_push.
  inversion HM as [|? ? HM1 HM2]; subst.
  assert (Hout : ~ In (bs n) (map f_name L)). { cbn [map] in HN. apply NoDup_remove_2 in HN. intro H. apply HN. apply in_or_app. auto. }
  set (c := OClos false (sign32 (fid n)) [OTab a]).
  destruct (flds_set sm1 t L (bs n) id c (flds_mono _ _ _ _ HK1 HF) Hout HM1 Hid Hg) as (t1 & Es & HF1).
  rewrite (tput_st3 v sm1 h s (OClos false (sign32 (fid n)) [ONil]) (OStr id (bs n)) a t t1 eq_refl Ha Ht ltac:(discriminate) Es). cbn [bind].
  destruct (IH sm1 (upd h (Z.to_nat a) t1) t1 (L ++ [mkFld (bs n) id c])) as (sm2 & t2 & L2 & E2 & HK2 & HR2 & HF2 & HM3); auto.
  - eapply upd_same; eauto.
  - intros m Hm. apply HI. right. auto.
  - rewrite map_app, <- app_assoc. exact HN.
  - exists sm2, t2, (mkFld (bs n) id c :: L2). rewrite E2, upd_upd. split; [reflexivity|]. split; [eapply keeps_strings_trans; eauto|]. split; [exact HR2|].
    split; [rewrite <- app_assoc in HF2; exact HF2|]. constructor; [split; reflexivity|exact HM3].
Qed.
Lemma make_ok names v sm h s : room_for names sm -> incl methods names ->
  exists sm' t' L', make_table fid (st3 v sm h s) = Ok (st3 v sm' (h ++ [t']) s, OTab (zlen h)) /\ keeps_strings sm sm' /\ room_for names sm' /\
    flds sm' t' L' /\ Forall2 (method_of (zlen h)) methods L'.
Proof.
  intros HR HI. unfold make_table, new_table. change (v_heap (st3 v sm h s)) with h. change (set_heap (st3 v sm h s) (h ++ [tab_new])) with (st3 v sm (h ++ [tab_new]) s).
  assert (Ha : 0 <= zlen h) by (unfold zlen; lia).
  assert (Hn : nth_error (h ++ [tab_new]) (Z.to_nat (zlen h)) = Some tab_new) by (unfold zlen; rewrite Nat2Z.id, nth_error_app2, Nat.sub_diag by lia; reflexivity).
  destruct (regs_ok names v s (zlen h) Ha methods sm (h ++ [tab_new]) tab_new [] Hn HR HI (flds_new sm)) as (sm' & t' & L' & E & HK & HR' & HF & HM).
  - cbn [map app]. apply (NoDup_count_occ' (list_eq_dec Z.eq_dec)). intros x Hx. cbn in Hx. repeat (destruct Hx as [<-|Hx]; [vm_compute; reflexivity|]). destruct Hx.
  - repeat constructor.
  - exists sm', t', L'. rewrite E. cbn [bind]. unfold zlen. rewrite Nat2Z.id, upd_snoc. auto 6.
Qed.
Lemma method_field sm a t l L L' : flds sm t (L ++ L') -> Forall2 (method_of a) l L -> forall m, In m l -> field sm t m (OClos false (sign32 (fid m)) [OTab a]).
Proof.
  intros HF HM m Hm.
  assert (Hf : exists f, In f L /\ method_of a m f). { clear HF. induction HM as [|n f l L H HM IH]; [destruct Hm|]. destruct Hm as [->|Hm]; [exists f; split; [left|]; auto|]. destruct (IH Hm) as (g & A & B). exists g. split; [right|]; auto. }
  destruct Hf as (f & Hin & Hn & Hv). assert (Hin' : In f (L ++ L')) by (apply in_or_app; auto).
  pose proof (flds_get _ _ _ _ HF Hin') as Hg. pose proof (fl_ok _ _ _ HF) as HO. rewrite Forall_forall in HO. destruct (HO f Hin') as (A & B & _).
  rewrite Hn in *. rewrite Hv in Hg. exists (f_id f). auto.
Qed.
Lemma method_names a l L : Forall2 (method_of a) l L -> map f_name L = map bs l.
Proof. induction 1 as [|n f l L [H _] _ IH]; [reflexivity|]. cbn [map]. rewrite H, IH. reflexivity. Qed.
Lemma poses_not_method a L : Forall2 (method_of a) methods L -> ~ In (bs "poses") (map f_name L).
Proof. intro H. rewrite (method_names _ _ _ H). intro Q. vm_compute in Q. repeat (destruct Q as [Q|Q]; [discriminate Q|]). exact Q. Qed.
End Make.

(** ** Reading "poses" *)
Section Poses.
Context {X : Type}.
Implicit Types v : vm X.
Definition opt_tab (d : option Z) : obj := match d with Some d => OTab d | None => ONil end.
Lemma poses_get v a dd l sm s : room_for l (v_str v) -> In "poses"%string l -> keeps_strings (v_str v) sm -> room_for l sm -> holds v a dd ->
  exists sm', (v3 <- push_name (st3 v sm (v_heap v) (OTab a :: s)) "poses" ;; vm_tget v3) = Ok (st3 v sm' (v_heap v) (opt_tab dd :: s)) /\ keeps_strings (v_str v) sm' /\ room_for l sm'.
Proof.
  intros HR0 Hp HK HR (t & Ht & Hf). unfold tab_at in Ht. destruct (0 <=? a) eqn:Ea; [|discriminate]. destruct (nth_error (v_heap v) (Z.to_nat a)) as [t0|] eqn:En; [|discriminate]. inversion Ht; subst t0.
  destruct (name_ok v sm (v_heap v) (OTab a :: s) "poses" l HR Hp) as (sm' & id & E & Hid & Hg & HK' & HR' & HU). exists sm'.
  rewrite E. cbn [bind]. split; [|split; [eapply keeps_strings_trans; eauto|exact HR']].
  assert (Ha : 0 <= a) by lia. destruct dd as [d|].
  - destruct Hf as (sid & Hs & Hgs & Hget). assert (sid = id) by (apply HU; auto). subst sid.
    exact (tget_st3 v sm' (v_heap v) s (OStr id (bs "poses")) a t _ eq_refl Ha En Hget).
  - exact (tget_st3 v sm' (v_heap v) s (OStr id (bs "poses")) a t _ eq_refl Ha En (Hf id Hid)).
Qed.
Lemma load_poses_ok v a dd args ra s rest L l : room_for l (v_str v) -> In "poses"%string l -> SwarmExecSpec.method_called v a args ra s rest L -> holds v a dd ->
  exists sm, load_poses v = Ok (st3 v sm (v_heap v) [opt_tab dd]) /\ keeps_strings (v_str v) sm /\ room_for l sm.
Proof.
  intros HR Hp [HS HL HRdy] HH. unfold load_poses. rewrite (lload_ok v _ L 0 (OTab a) HL ltac:(lia) eq_refl). cbn [bind].
  rewrite (push_st3 v [] _ (OTab a) HS). exact (poses_get v a dd l (v_str v) [] HR Hp (keeps_strings_refl _) HR HH).
Qed.
End Poses.
