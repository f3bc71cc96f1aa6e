(** C99: what the controller of the robot reports is what the script finds in neighbors. *)
From Coq Require Import String Permutation.
From Verif Require Import Base ListLemmas Float Dict PDict PDictKeys Strman StrmanSpec StrmanProofs Obj ObjSpec ObjProofs Instr Vm VmSpec VmProofs
  PropsVmData Text Strlib CFunSpec CFunProofs PropsStrlib WireProofs SwarmExecSpec PropsSwarmExec TableLib TableLibSpec TableLibProofs PropsTableLib
  PropsVm NeighborsVm NeighborsVmSpec NeighborsVmProofs PropsNeighborsVm.
Local Open Scope Z_scope.
Local Open Scope list_scope.

(** ** Tables *)
Definition idof (sm : strman) (s : str) : Z := match s2i_get (str2id sm) s with Some i => i | None => 0 end.
Lemma live_class sm k : good_strings sm -> live_key sm k -> key_class false (idof sm) k = true.
Proof.
  intros HG HK. destruct (good_inv _ HG) as (M & HI & _). destruct k as [| z | f | sid s | | |]; cbn in *; try tauto.
  - unfold int32_range, int32_rangeb in *. lia.
  - destruct HK as (Hs & Hg & Hn). rewrite Hn. unfold sm_get in Hg. destruct (i2s_get (id2str sm) sid) as [[u q]|] eqn:E; [|discriminate]. inversion Hg; subst u.
    apply (si_i2s _ _ HI) in E; auto. unfold idof. rewrite (si_s2i _ _ HI), E. cbn [option_map fst]. rewrite Z.eqb_refl. cbn. lia.
Qed.
Lemma made_built sm t : good_strings sm -> made sm t -> built (key_class false (idof sm)) t.
Proof. intros HG (ops & A & B). exists ops. split; [|exact B]. eapply Forall_impl; [|exact A]. intros o Ho. apply live_class; auto. Qed.
Lemma live_mono sm sm' k : keeps_strings sm sm' -> live_key sm k -> live_key sm' k.
Proof. intros HK. destruct k; cbn; try tauto. intros (A & B & C). auto. Qed.
Lemma made_mono sm sm' t : keeps_strings sm sm' -> made sm t -> made sm' t.
Proof. intros HK (ops & A & B). exists ops. split; [|exact B]. eapply Forall_impl; [|exact A]. intros o Ho. eapply live_mono; eauto. Qed.
Lemma made_set sm t k o : good_strings sm -> made sm t -> live_key sm k ->
  exists t', tab_set t k o = Ok t' /\ made sm t' /\ tab_get t' k = Ok (Some o) /\
    (forall k', live_key sm k' -> same_key k k' = false -> tab_get t' k' = tab_get t k').
Proof.
  intros HG HM HK. pose proof (good_class false (idof sm)) as G. pose proof (built_twf _ _ _ (made_built _ _ HG HM)) as HT. pose proof (live_class _ _ HG HK) as Hk.
  destruct (tab_set_get _ _ _ G t k o k HT Hk Hk) as (t1 & E1 & W1 & r1 & _ & G1). exists t1. split; [exact E1|]. split; [|split].
  - destruct HM as (ops & A & B). exists (ops ++ [TabSet k o]). split; [apply Forall_app; split; [exact A|constructor; [exact HK|constructor]]|].
    rewrite history_app, B. cbn [bind tab_history]. unfold tab_set. rewrite E1. reflexivity.
  - unfold tab_get. rewrite G1. assert (Es : same_key k k = true) by (apply (gc_eqv _ _ _ G)|| apply G; auto). rewrite Es. reflexivity.
  - intros k' HK' HE. pose proof (live_class _ _ HG HK') as Hk'. destruct (tab_set_get _ _ _ G t k o k' HT Hk Hk') as (t2 & E2 & _ & r & Er & G2). rewrite E1 in E2. inversion E2; subst t2.
    unfold tab_get. rewrite G2, Er, HE. reflexivity.
Qed.
Lemma int_key_class k : key_class false (fun _ => -1) k = int_key k.
Proof. destruct k; cbn; auto. destruct (Z.eqb_spec sid (-1)) as [->|]; reflexivity. Qed.
Lemma int_built t : built int_key t <-> built (key_class false (fun _ => -1)) t.
Proof. split; intros (ops & A & B); exists ops; (split; [|exact B]); (eapply Forall_impl; [|exact A]); intros o Ho; cbn beta in *; rewrite int_key_class in *; auto. Qed.
Lemma int_set t r o : built int_key t -> int32_range r ->
  exists t', tab_set t (OInt r) o = Ok t' /\ built int_key t' /\ forall r', int32_range r' -> tab_get t' (OInt r') = if r' =? r then Ok (Some o) else tab_get t (OInt r').
Proof.
  intros HB Hr. pose proof (good_class false (fun _ => -1)) as G. pose proof (built_twf _ _ _ (proj1 (int_built t) HB)) as HT.
  assert (HC : forall r, int32_range r -> key_class false (fun _ => -1) (OInt r) = true) by (intros z Hz; cbn; unfold int32_range, int32_rangeb in *; lia).
  destruct (tab_set_get _ _ _ G t (OInt r) o (OInt r) HT (HC r Hr) (HC r Hr)) as (t1 & E1 & _). exists t1. split; [exact E1|]. split.
  - destruct HB as (ops & A & B). exists (ops ++ [TabSet (OInt r) o]). split; [apply Forall_app; split; [exact A|constructor; [cbn; unfold int32_range, int32_rangeb in *; lia|constructor]]|].
    rewrite history_app, B. cbn [bind tab_history]. unfold tab_set. rewrite E1. reflexivity.
  - intros r' Hr'. destruct (tab_set_get _ _ _ G t (OInt r) o (OInt r') HT (HC r Hr) (HC r' Hr')) as (t2 & E2 & _ & q & Eq & G2). rewrite E1 in E2. inversion E2; subst t2.
    unfold tab_get. rewrite G2, Eq. cbn [same_key]. rewrite (Z.eqb_sym r r'). destruct (r' =? r); reflexivity.
Qed.

Lemma tab_set_size fl sidof t k o t' : twf table_hash (key_class fl sidof) t -> key_class fl sidof k = true -> tab_get t k = Ok None -> tab_set t k o = Ok t' ->
  zlen (pentries t') = zlen (pentries t) + 1.
Proof.
  intros HT Hk HN HS. pose proof (good_class fl sidof) as G. unfold tab_get in HN. unfold tab_set in HS.
  rewrite (rget_pget _ _ _ G) in HN by auto. rewrite (rset_pset _ _ _ G) in HS by auto. inversion HN as [HN']. inversion HS as [HS'].
  pose proof (size_set _ _ _ (good_k _ _ _ G) t k o (proj1 (proj2 HT))) as Hz. rewrite HN' in Hz. exact Hz.
Qed.
Lemma flds_size sm : forall l t, flds sm t l -> zlen (pentries t) = zlen l.
Proof.
  induction l as [|f l IH] using rev_ind; intros t HF. { destruct HF as [A _ _]. inversion A. reflexivity. }
  destruct HF as [A B C]. rewrite map_app, history_app in A. destruct (tab_history tab_new (map fld_op l)) as [t1| | |] eqn:E; cbn [bind] in A; try discriminate.
  cbn [map tab_history fld_op] in A. destruct (tab_set t1 (OStr (f_id f) (f_name f)) (f_val f)) as [t2| | |] eqn:Es; cbn [bind] in A; try discriminate. inversion A; subst t2.
  apply Forall_app in B as [B1 B2]. inversion B2 as [|? ? (F1 & F2 & F3) _]; subst. rewrite map_app in C. cbn [map] in C. pose proof (NoDup_remove_1 _ _ _ C) as C1. pose proof (NoDup_remove_2 _ _ _ C) as C2. rewrite app_nil_r in C1, C2.
  assert (HF1 : flds sm t1 l) by (split; auto).
  pose proof (good_class false (sid_in l (f_id f))) as G.
  destruct (flds_build (sid_in l (f_id f)) l tab_new (twf_new _ _ _ G) (flds_class sm l _ B1 C1) C1) as (t2 & E2 & W & _). rewrite E in E2. inversion E2; subst t2.
  rewrite (tab_set_size false (sid_in l (f_id f)) t1 (OStr (f_id f) (f_name f)) (f_val f) t W); auto.
  - rewrite (IH t1 HF1), zlen_app. reflexivity.
  - cbn. rewrite (sid_in_out l (f_id f) (f_name f) C2), F3, Z.eqb_refl. cbn. lia.
  - exact (flds_none sm t1 l (f_name f) (f_id f) HF1 C2 F3 F1).
Qed.

(** ** reset *)
Section Ctl.
Context {X : Type}.
Implicit Types v : vm X.
Lemma gload_st3 v sm h s i n o : gsym_get (v_gsyms v) i = Some o -> vm_gload (st3 v sm h (OStr i n :: s)) = Ok (st3 v sm h (o :: s)).
Proof.
  intro H. unfold vm_gload, stack_assert, type_assert. change (stack (st3 v sm h (OStr i n :: s))) with (OStr i n :: s).
  replace (zlen (OStr i n :: s) - 1 <? 0) with false by (unfold zlen; cbn [length]; lia).
  change (stack_at (st3 v sm h (OStr i n :: s)) 1) with (@Ok obj (OStr i n)). cbn [bind otype]. change (T_STRING =? T_STRING) with true. cbv iota.
  change (v_gsyms (st3 v sm h (OStr i n :: s))) with (v_gsyms v). rewrite H. reflexivity.
Qed.
Lemma load_neighbors v a s r l : v_stacks v = s :: r -> room_for l (v_str v) -> In "neighbors"%string l -> neighbors_at v a ->
  exists sm, (v1 <- push_name v "neighbors" ;; vm_gload v1) = Ok (st3 v sm (v_heap v) (OTab a :: s)) /\ keeps_strings (v_str v) sm /\ room_for l sm.
Proof.
  intros HS HR Hn (sid & Hs & Hg & Hgl).
  destruct (name_ok v (v_str v) (v_heap v) s "neighbors" l HR Hn) as (sm & id & E & Hid & _ & HK & HR' & HU). rewrite <- (st3_self v _ _ HS) in E. exists sm.
  rewrite E. cbn [bind]. rewrite <- (HU sid Hs Hg). rewrite (gload_st3 v sm _ _ _ _ _ Hgl). auto.
Qed.
Lemma at_app (h : list table) i t x : 0 <= i -> nth_error h (Z.to_nat i) = Some t -> nth_error (h ++ x) (Z.to_nat i) = Some t.
Proof. intros Hi H. rewrite nth_error_app1; auto. apply nth_error_Some. congruence. Qed.
Lemma at_new (h : list table) x : nth_error (h ++ [x]) (Z.to_nat (zlen h)) = Some x.
Proof. unfold zlen. rewrite Nat2Z.id, nth_error_app2, Nat.sub_diag by lia. reflexivity. Qed.
Lemma tab_at_nth v i t : tab_at v i = Ok t <-> 0 <= i /\ nth_error (v_heap v) (Z.to_nat i) = Some t.
Proof.
  unfold tab_at. destruct (Z.leb_spec 0 i); [|split; [discriminate|lia]]. destruct (nth_error _ _) as [u|]; split; intro H1; try discriminate.
  - inversion H1. auto. - f_equal. destruct H1 as [_ H1]. inversion H1. reflexivity. - destruct H1 as [_ H1]; discriminate.
Qed.
Lemma tab_at_lt v i t : tab_at v i = Ok t -> 0 <= i < zlen (v_heap v).
Proof. rewrite tab_at_nth. intros [A B]. split; auto. assert (Hl : (Z.to_nat i < length (v_heap v))%nat) by (apply nth_error_Some; congruence). unfold zlen. lia. Qed.

Lemma only_st3 v sm h s r l : v_stacks v = s :: r -> keeps_strings (v_str v) sm -> (forall i t, ~ In i l -> 0 <= i -> nth_error (v_heap v) (Z.to_nat i) = Some t -> nth_error h (Z.to_nat i) = Some t) ->
  only_tables l v (st3 v sm h s).
Proof.
  intros HS HK HT. constructor; try reflexivity; auto; [cbn; rewrite HS; reflexivity|]. intros i t Hi H. apply tab_at_nth in H as [A B]. apply tab_at_nth. split; auto.
Qed.
End Ctl.

(** At the beginning of a step, buzzneighbors_reset makes the set of neighbors empty. *)
Theorem C99_reset :
  forall X (v : vm X) a t s r,
    v_state v = S_READY -> v_stacks v = s :: r -> room_for add_names (v_str v) -> neighbors_at v a -> tab_at v a = Ok t -> made (v_str v) t ->
    exists v' t', neighbors_reset v = Ok v' /\ only_tables [a] v v' /\ room_for add_names (v_str v') /\
      neighbors_are v' a (zlen (v_heap v)) (fun _ => None) /\
      tab_at v' a = Ok t' /\ made (v_str v') t' /\
      (forall k, live_key (v_str v') k -> (forall sid, k <> OStr sid (bs "poses")) -> tab_get t' k = tab_get t k).
Proof.
  intros X v a t s r HRd HS HR HN HT HM. unfold neighbors_reset. rewrite HRd. cbn [is_ready negb].
  destruct (load_neighbors v a s r add_names HS HR ltac:(left; reflexivity) HN) as (sm1 & E1 & HK1 & HR1).
  destruct (push_name v "neighbors") as [w| | |]; cbn [bind] in *; try discriminate. rewrite E1. cbn [bind]. clear E1 w.
  unfold type_assert. change (stack_at (st3 v sm1 (v_heap v) (OTab a :: s)) 1) with (@Ok obj (OTab a)). cbn [bind otype]. change (T_TABLE =? T_TABLE) with true. cbv iota.
  destruct (name_ok v sm1 (v_heap v) (OTab a :: s) "poses" add_names HR1 ltac:(right; left; reflexivity)) as (sm2 & id & E2 & Hid & Hg & HK2 & HR2 & _).
  rewrite E2. cbn [bind]. clear E2. unfold vm_pusht, new_table. change (v_heap (st3 v sm2 (v_heap v) (OStr id (bs "poses") :: OTab a :: s))) with (v_heap v).
  set (h := v_heap v) in *. change (push _ (OTab (zlen h))) with (st3 v sm2 (h ++ [tab_new]) (OTab (zlen h) :: OStr id (bs "poses") :: OTab a :: s)).
  pose proof (tab_at_lt _ _ _ HT) as Ha. apply tab_at_nth in HT as [Ha0 HT].
  assert (HK : keeps_strings (v_str v) sm2) by (eapply keeps_strings_trans; eauto).
  destruct (made_set sm2 t (OStr id (bs "poses")) (OTab (zlen h)) (room_good _ _ HR2) (made_mono _ _ _ HK HM)) as (t' & Es & HM' & Hget & Hoth); [cbn; auto|].
  rewrite (tput_st3 v sm2 (h ++ [tab_new]) s (OTab (zlen h)) (OStr id (bs "poses")) a t t' eq_refl Ha0 (at_app _ _ _ _ Ha0 HT) ltac:(discriminate) Es).
  eexists. exists t'. split; [reflexivity|].
  set (h' := upd (h ++ [tab_new]) (Z.to_nat a) t').
  assert (Ha' : nth_error h' (Z.to_nat a) = Some t') by (unfold h'; eapply upd_same, at_app; eauto).
  assert (Hd' : nth_error h' (Z.to_nat (zlen h)) = Some tab_new). { unfold h'. rewrite upd_other; [apply at_new|]. unfold h in *. lia. }
  split. { apply (only_st3 v sm2 h' s r); auto. intros i u Hi Hi0 Hu. unfold h'. rewrite upd_other; [apply at_app; auto|]. intro E. apply Hi. left. lia. }
  split; [exact HR2|]. split; [|split; [|split]].
  - split; [unfold h; lia|]. split.
    + exists t'. split; [apply tab_at_nth; auto|]. exists id. auto.
    + exists tab_new. split; [apply tab_at_nth; split; [unfold zlen; lia|exact Hd']|]. split; [exists []; split; [constructor|reflexivity]|].
      intros q Hq. apply (new_get false (fun _ => -1)). rewrite int_key_class. cbn. unfold int32_range, int32_rangeb in *. lia.
  - apply tab_at_nth; auto.
  - exact HM'.
  - intros k Hk Hne. apply Hoth; [exact Hk|]. destruct k as [| | |sid s0| | |]; cbn [same_key]; auto. destruct (list_eq_dec _ _ _) as [E|E]; [|reflexivity]. destruct (Hne sid). rewrite E. reflexivity.
Qed.
Print Assumptions C99_reset.

(** ** add *)
Section Add.
Context {X : Type}.
Implicit Types v : vm X.
Definition float_of (p : string * f32) (f : fld) : Prop := f_name f = bs (fst p) /\ f_val f = OFloat (snd p).
Lemma put_float_ok names v s a sm h t L p : 0 <= a -> nth_error h (Z.to_nat a) = Some t -> room_for names sm -> In (fst p) names ->
  flds sm t L -> ~ In (bs (fst p)) (map f_name L) -> numlike (bs (fst p)) = false ->
  exists sm' t' f, put_float (OTab a) (st3 v sm h s) p = Ok (st3 v sm' (upd h (Z.to_nat a) t') s) /\ keeps_strings sm sm' /\ room_for names sm' /\
    flds sm' t' (L ++ [f]) /\ float_of p f.
Proof.
  intros Ha Ht HR HI HF HN HM. unfold put_float. rewrite st3_push.
  destruct (name_ok v sm h (OTab a :: s) (fst p) names HR HI) as (sm1 & id & E1 & Hid & Hg & HK1 & HR1 & _). rewrite E1. cbn [bind]. rewrite st3_push.
  destruct (flds_set sm1 t L (bs (fst p)) id (OFloat (snd p)) (flds_mono _ _ _ _ HK1 HF) HN HM Hid Hg) as (t1 & Es & HF1).
  rewrite (tput_st3 v sm1 h s (OFloat (snd p)) (OStr id (bs (fst p))) a t t1 eq_refl Ha Ht ltac:(discriminate) Es).
  exists sm1, t1, (mkFld (bs (fst p)) id (OFloat (snd p))). split; [reflexivity|]. split; [exact HK1|]. split; [exact HR1|]. split; [exact HF1|]. split; reflexivity.
Qed.
Lemma float_field sm t L L' p f : flds sm t (L ++ f :: L') -> float_of p f -> field sm t (fst p) (OFloat (snd p)).
Proof.
  intros HF [Hn Hv]. assert (Hin : In f (L ++ f :: L')) by (apply in_or_app; right; left; reflexivity).
  pose proof (flds_get _ _ _ _ HF Hin) as Hg. pose proof (fl_ok _ _ _ HF) as HO. rewrite Forall_forall in HO. destruct (HO f Hin) as (A & B & _).
  rewrite Hn in *. rewrite Hv in Hg. exists (f_id f). auto.
Qed.
Lemma field_mono sm sm' t n o : keeps_strings sm sm' -> field sm t n o -> field sm' t n o.
Proof. intros HK (sid & A & B & C). exists sid. auto. Qed.
Lemma entry_mono v v' e p : keeps_strings (v_str v) (v_str v') -> (forall t, tab_at v e = Ok t -> tab_at v' e = Ok t) -> entry_is v e p -> entry_is v' e p.
Proof. intros HK HT (t & A & B & C & D & E). exists t. split; [auto|]. split; [eapply field_mono; eauto|]. split; [eapply field_mono; eauto|]. split; [eapply field_mono; eauto|exact E]. Qed.

(** The end of buzzneighbors_add, with the table of the entries at [d] on the stack. *)
Lemma add_tail v sm h s d td r0 robot dist az el :
  v_stacks v = s :: r0 -> room_for add_names sm -> 0 <= d -> nth_error h (Z.to_nat d) = Some td -> built int_key td -> int32_range robot ->
  exists sm' te td',
    (let '(v6, entry) := new_table (push (st3 v sm h (OTab d :: s)) (OInt robot)) in
     v7 <- put_float entry v6 ("distance"%string, dist) ;;
     v8 <- put_float entry v7 ("azimuth"%string, az) ;;
     v9 <- put_float entry v8 ("elevation"%string, el) ;;
     vm_tput (push v9 entry)) = Ok (st3 v sm' (upd (h ++ [te]) (Z.to_nat d) td') s) /\
    keeps_strings sm sm' /\ room_for add_names sm' /\ built int_key td' /\
    (forall r', int32_range r' -> tab_get td' (OInt r') = if r' =? robot then Ok (Some (OTab (zlen h))) else tab_get td (OInt r')) /\
    field sm' te "distance" (OFloat dist) /\ field sm' te "azimuth" (OFloat az) /\ field sm' te "elevation" (OFloat el) /\ zlen (pentries te) = 3.
Proof.
  intros HS HR Hd0 Hd HB Hr. rewrite st3_push. unfold new_table. set (st := OInt robot :: OTab d :: s).
  change (v_heap (st3 v sm h st)) with h. change (set_heap (st3 v sm h st) (h ++ [tab_new])) with (st3 v sm (h ++ [tab_new]) st). cbv beta iota.
  assert (He0 : 0 <= zlen h) by (unfold zlen; lia).
  assert (Hup : forall x y, upd (h ++ [x]) (Z.to_nat (zlen h)) y = h ++ [y]) by (intros; unfold zlen; rewrite Nat2Z.id; apply upd_snoc).
  destruct (put_float_ok add_names v st (zlen h) sm (h ++ [tab_new]) tab_new [] ("distance"%string, dist) He0 (at_new h _) HR) as (sm1 & t1 & f1 & E1 & HK1 & HR1 & HF1 & HO1); auto; [cbn; tauto|apply flds_new|].
  rewrite E1. cbn [bind]. rewrite Hup. clear E1. cbn [app] in HF1.
  destruct (put_float_ok add_names v st (zlen h) sm1 (h ++ [t1]) t1 [f1] ("azimuth"%string, az) He0 (at_new h _) HR1) as (sm2 & t2 & f2 & E2 & HK2 & HR2 & HF2 & HO2); auto; [cbn; tauto| |].
  { intros [H|[]]. rewrite (proj1 HO1) in H. discriminate H. }
  rewrite E2. cbn [bind]. rewrite Hup. clear E2. cbn [app] in HF2.
  destruct (put_float_ok add_names v st (zlen h) sm2 (h ++ [t2]) t2 [f1; f2] ("elevation"%string, el) He0 (at_new h _) HR2) as (sm3 & t3 & f3 & E3 & HK3 & HR3 & HF3 & HO3); auto; [cbn; tauto| |].
  { intros [H|[H|[]]]; [rewrite (proj1 HO1) in H|rewrite (proj1 HO2) in H]; discriminate H. }
  rewrite E3. cbn [bind]. rewrite Hup. clear E3. cbn [app] in HF3. rewrite st3_push. unfold st.
  destruct (int_set td robot (OTab (zlen h)) HB Hr) as (td' & Es & HB' & Hget).
  rewrite (tput_st3 v sm3 (h ++ [t3]) s (OTab (zlen h)) (OInt robot) d td td' eq_refl Hd0 (at_app _ _ _ _ Hd0 Hd) ltac:(discriminate) Es).
  exists sm3, t3, td'. split; [reflexivity|]. split; [exact (keeps_strings_trans _ _ _ (keeps_strings_trans _ _ _ HK1 HK2) HK3)|]. split; [exact HR3|]. split; [exact HB'|]. split; [exact Hget|].
  split; [exact (float_field sm3 t3 [] [f2; f3] ("distance"%string, dist) f1 HF3 HO1)|].
  split; [exact (float_field sm3 t3 [f1] [f3] ("azimuth"%string, az) f2 HF3 HO2)|].
  split; [exact (float_field sm3 t3 [f1; f2] [] ("elevation"%string, el) f3 HF3 HO3)|]. exact (flds_size sm3 _ _ HF3).
Qed.
End Add.

(** buzzneighbors_add puts the data about one robot among the neighbors, in place of older data about it; the data about the others
    stay. *)
Theorem C99_add :
  forall X (v : vm X) a d f robot dist az el s r,
    v_state v = S_READY -> v_stacks v = s :: r -> room_for add_names (v_str v) -> neighbors_at v a -> neighbors_are v a d f -> int32_range robot ->
    exists v', neighbors_add robot dist az el v = Ok v' /\ only_tables [d] v v' /\ room_for add_names (v_str v') /\
      neighbors_are v' a d (fun r => if r =? robot then Some (dist, az, el) else f r).
Proof.
  intros X v a d f robot dist az el s r HRd HS HR HN (Hda & (ta & HTa & sidp & Hsp & Hgp & Hfp) & td & HTd & HB & Hf) Hrob. unfold neighbors_add. rewrite HRd. cbn [is_ready negb].
  destruct (load_neighbors v a s r add_names HS HR ltac:(left; reflexivity) HN) as (sm1 & E1 & HK1 & HR1).
  destruct (push_name v "neighbors") as [w| | |]; cbn [bind] in *; try discriminate. rewrite E1. cbn [bind]. clear E1 w.
  unfold type_assert. change (stack_at (st3 v sm1 (v_heap v) (OTab a :: s)) 1) with (@Ok obj (OTab a)). cbn [bind otype]. change (T_TABLE =? T_TABLE) with true. cbv iota.
  destruct (name_ok v sm1 (v_heap v) (OTab a :: s) "poses" add_names HR1 ltac:(right; left; reflexivity)) as (sm2 & id & E2 & Hid & Hg & HK2 & HR2 & HU).
  rewrite E2. cbn [bind]. clear E2. assert (sidp = id) by (apply HU; auto). subst sidp.
  pose proof (tab_at_lt _ _ _ HTd) as Hdl. pose proof HTa as HTa'. pose proof HTd as HTd'. apply tab_at_nth in HTa' as [Ha0 HTa']. apply tab_at_nth in HTd' as [Hd0 HTd'].
  rewrite (tget_st3 v sm2 (v_heap v) s (OStr id (bs "poses")) a ta _ eq_refl Ha0 HTa' Hfp). cbn [bind].
  change (stack_at (st3 v sm2 (v_heap v) (OTab d :: s)) 1) with (@Ok obj (OTab d)). cbn [bind].
  destruct (add_tail v sm2 (v_heap v) s d td r robot dist az el HS HR2 Hd0 HTd' HB Hrob) as (sm3 & te & td' & E3 & HK3 & HR3 & HB' & Hget & F1 & F2 & F3 & F4).
  rewrite E3. eexists. split; [reflexivity|]. set (h' := upd (v_heap v ++ [te]) (Z.to_nat d) td').
  assert (HK : keeps_strings (v_str v) sm3) by exact (keeps_strings_trans _ _ _ (keeps_strings_trans _ _ _ HK1 HK2) HK3).
  assert (HO : only_tables [d] v (st3 v sm3 h' s)).
  { apply (only_st3 v sm3 h' s r); auto. intros i u Hi Hi0 Hu. unfold h'. rewrite upd_other; [apply at_app; auto|]. intro E. apply Hi. left. lia. }
  split; [exact HO|]. split; [exact HR3|]. split; [exact Hda|]. split.
  - exists ta. split; [apply (ot_tables _ _ _ HO); [intros [E|[]]; congruence|exact HTa]|]. exists id. split; [exact Hid|]. split; [apply HK; auto|exact Hfp].
  - exists td'. split; [apply tab_at_nth; split; [exact Hd0|]; unfold h'; eapply upd_same, at_app; eauto|]. split; [exact HB'|].
    intros q Hq. rewrite (Hget q Hq). destruct (Z.eqb_spec q robot) as [->|Hne].
    + exists (zlen (v_heap v)). pose proof (tab_at_lt _ _ _ HTa). split; [lia|]. split; [lia|]. split; [reflexivity|].
      exists te. split; [|auto]. apply tab_at_nth. split; [unfold zlen; lia|]. unfold h'. cbn [v_heap st3]. rewrite upd_other by lia. apply at_new.
    + pose proof (Hf q Hq) as Hq'. destruct (f q) as [p|]; [|exact Hq']. destruct Hq' as (e & A1 & A2 & A3 & A4). exists e. split; [exact A1|]. split; [exact A2|]. split; [exact A3|].
      eapply entry_mono; [|  |exact A4]; [exact HK|]. intros u Hu. apply (ot_tables _ _ _ HO); [intros [E|[]]; congruence|exact Hu].
Qed.
Print Assumptions C99_add.

(** The first data about a robot, when the set of neighbors was never reset. *)
Theorem C99_add_first :
  forall X (v : vm X) a t robot dist az el s r,
    v_state v = S_READY -> v_stacks v = s :: r -> room_for add_names (v_str v) -> neighbors_at v a -> tab_at v a = Ok t -> made (v_str v) t -> no_field t "poses" ->
    int32_range robot ->
    exists v', neighbors_add robot dist az el v = Ok v' /\ only_tables [a] v v' /\ room_for add_names (v_str v') /\
      neighbors_are v' a (zlen (v_heap v)) (fun r => if r =? robot then Some (dist, az, el) else None).
Proof.
  intros X v a t robot dist az el s r HRd HS HR HN HT HM HNo Hrob. unfold neighbors_add. rewrite HRd. cbn [is_ready negb].
  destruct (load_neighbors v a s r add_names HS HR ltac:(left; reflexivity) HN) as (sm1 & E1 & HK1 & HR1).
  destruct (push_name v "neighbors") as [w| | |]; cbn [bind] in *; try discriminate. rewrite E1. cbn [bind]. clear E1 w.
  unfold type_assert. change (stack_at (st3 v sm1 (v_heap v) (OTab a :: s)) 1) with (@Ok obj (OTab a)). cbn [bind otype]. change (T_TABLE =? T_TABLE) with true. cbv iota.
  destruct (name_ok v sm1 (v_heap v) (OTab a :: s) "poses" add_names HR1 ltac:(right; left; reflexivity)) as (sm2 & id & E2 & Hid & Hg & HK2 & HR2 & _).
  rewrite E2. cbn [bind]. clear E2. pose proof (tab_at_lt _ _ _ HT) as Ha. apply tab_at_nth in HT as [Ha0 HT].
  rewrite (tget_st3 v sm2 (v_heap v) s (OStr id (bs "poses")) a t _ eq_refl Ha0 HT (HNo id Hid)). cbn [bind].
  change (stack_at (st3 v sm2 (v_heap v) (ONil :: s)) 1) with (@Ok obj ONil). cbn [bind].
  change (vm_pop (st3 v sm2 (v_heap v) (ONil :: s))) with (st3 v sm2 (v_heap v) s). rewrite st3_push.
  destruct (name_ok v sm2 (v_heap v) (OTab a :: s) "poses" add_names HR2 ltac:(right; left; reflexivity)) as (sm3 & id3 & E3 & Hid3 & Hg3 & HK3 & HR3 & _).
  rewrite E3. cbn [bind]. clear E3. cbv zeta. unfold vm_pusht, new_table at 1 2. change (v_heap (st3 v sm3 (v_heap v) (OStr id3 (bs "poses") :: OTab a :: s))) with (v_heap v).
  set (h := v_heap v) in *. set (d := zlen h). change (push _ (OTab d)) with (st3 v sm3 (h ++ [tab_new]) (OTab d :: OStr id3 (bs "poses") :: OTab a :: s)).
  change (stack_at (st3 v sm3 (h ++ [tab_new]) (OTab d :: OStr id3 (bs "poses") :: OTab a :: s)) 1) with (@Ok obj (OTab d)). cbn [bind].
  assert (HK : keeps_strings (v_str v) sm3) by exact (keeps_strings_trans _ _ _ (keeps_strings_trans _ _ _ HK1 HK2) HK3).
  destruct (made_set sm3 t (OStr id3 (bs "poses")) (OTab d) (room_good _ _ HR3) (made_mono _ _ _ HK HM)) as (t' & Es & HM' & Hget & _); [cbn; auto|].
  rewrite (tput_st3 v sm3 (h ++ [tab_new]) s (OTab d) (OStr id3 (bs "poses")) a t t' eq_refl Ha0 (at_app _ _ _ _ Ha0 HT) ltac:(discriminate) Es). cbn [bind].
  set (h2 := upd (h ++ [tab_new]) (Z.to_nat a) t'). rewrite st3_push.
  assert (Ha2 : nth_error h2 (Z.to_nat a) = Some t') by (unfold h2; eapply upd_same, at_app; eauto).
  assert (Hd0 : 0 <= d) by (unfold d, zlen; lia).
  assert (Hd2 : nth_error h2 (Z.to_nat d) = Some tab_new). { unfold h2. rewrite upd_other; [apply at_new|]. unfold d, h in *. lia. }
  assert (HB0 : built int_key tab_new) by (exists []; split; [constructor|reflexivity]).
  destruct (add_tail v sm3 h2 s d tab_new r robot dist az el HS HR3 Hd0 Hd2 HB0 Hrob) as (sm4 & te & td' & E4 & HK4 & HR4 & HB' & Hget' & F1 & F2 & F3 & F4).
  rewrite E4. eexists. split; [reflexivity|]. set (h' := upd (h2 ++ [te]) (Z.to_nat d) td').
  assert (HKf : keeps_strings (v_str v) sm4) by exact (keeps_strings_trans _ _ _ HK HK4).
  assert (Hda : d <> a) by (unfold d; lia).
  assert (Hl2 : zlen h2 = d + 1). { unfold h2, zlen. rewrite upd_length, app_length. cbn [length]. unfold d, zlen. lia. }
  split. { apply (only_st3 v sm4 h' s r); auto. intros i u Hi Hi0 Hu. assert (i < d) by (assert ((Z.to_nat i < length (v_heap v))%nat) by (apply nth_error_Some; congruence); unfold d, h, zlen; lia).
    unfold h'. rewrite upd_other by lia. apply at_app; auto. unfold h2. rewrite upd_other; [apply at_app; auto|]. intro E. apply Hi. left. lia. }
  split; [exact HR4|]. split; [exact Hda|]. split.
  - exists t'. split; [apply tab_at_nth; split; [exact Ha0|]; unfold h'; cbn [v_heap st3]; rewrite upd_other by lia; apply at_app; auto|]. exists id3. split; [exact Hid3|]. split; [apply HK4; auto|exact Hget].
  - exists td'. split; [apply tab_at_nth; split; [exact Hd0|]; unfold h'; eapply upd_same, at_app; eauto|]. split; [exact HB'|].
    intros q Hq. rewrite (Hget' q Hq). destruct (Z.eqb_spec q robot) as [->|Hne].
    + exists (zlen h2). rewrite Hl2. split; [unfold d; lia|]. split; [lia|]. split; [reflexivity|].
      exists te. split; [|auto]. apply tab_at_nth. split; [lia|]. unfold h'. cbn [v_heap st3]. rewrite upd_other by lia. rewrite <- Hl2. apply at_new.
    + apply (new_get false (fun _ => -1)). rewrite int_key_class. cbn. unfold int32_range, int32_rangeb in *. lia.
Qed.
Print Assumptions C99_add_first.

(** ** One step of the controller *)
(** The controller resets the neighbors and then reports each message it received. *)
Fixpoint report {X} (l : list (Z * pose)) (v : vm X) : res (vm X) :=
  match l with [] => Ok v | (r, p) :: l' => v1 <- neighbors_add r (fst (fst p)) (snd (fst p)) (snd p) v ;; report l' v1 end.
Definition new_neighbors {X} (l : list (Z * pose)) (v : vm X) : res (vm X) := v1 <- neighbors_reset v ;; report l v1.

Lemma only_trans {X} l (v w z : vm X) : only_tables l v w -> only_tables l w z -> only_tables l v z.
Proof.
  intros [A1 A2 A3 A4 A5 A6 A7 A8 A9] [B1 B2 B3 B4 B5 B6 B7 B8 B9]. constructor; try congruence; [eapply keeps_strings_trans; eauto|]. auto.
Qed.
Lemma only_new {X} l d (v w z : vm X) : only_tables l v w -> only_tables [d] w z -> zlen (v_heap v) <= d -> only_tables l v z.
Proof.
  intros [A1 A2 A3 A4 A5 A6 A7 A8 A9] [B1 B2 B3 B4 B5 B6 B7 B8 B9] Hd. constructor; try congruence; [eapply keeps_strings_trans; eauto|].
  intros i t Hi Ht. apply B9; [|auto]. pose proof (tab_at_lt _ _ _ Ht). intros [E|[]]. lia.
Qed.
Lemma neighbors_at_mono {X} (v w : vm X) a : keeps_strings (v_str v) (v_str w) -> v_gsyms w = v_gsyms v -> neighbors_at v a -> neighbors_at w a.
Proof. intros HK HG (sid & A & B & C). exists sid. rewrite HG. auto. Qed.
Lemma neighbors_are_ext {X} (v : vm X) a d f g : (forall r, f r = g r) -> neighbors_are v a d f -> neighbors_are v a d g.
Proof. intros HE (A & B & td & C & D & E). split; [exact A|]. split; [exact B|]. exists td. split; [exact C|]. split; [exact D|]. intros r Hr. rewrite <- HE. exact (E r Hr). Qed.

Lemma find_app {A} (p : A -> bool) l l' : find p (l ++ l') = match find p l with Some x => Some x | None => find p l' end.
Proof. induction l as [|x l IH]; cbn; [reflexivity|]. destruct (p x); auto. Qed.
Lemma report_ok {X} a d : forall l (v : vm X) f s r,
  v_state v = S_READY -> v_stacks v = s :: r -> room_for add_names (v_str v) -> neighbors_at v a -> neighbors_are v a d f -> Forall (fun e => int32_range (fst e)) l ->
  exists v', report l v = Ok v' /\ only_tables [d] v v' /\ room_for add_names (v_str v') /\
    neighbors_are v' a d (fun r => match last_pose l r with Some p => Some p | None => f r end).
Proof.
  induction l as [|[q [[x y] z]] l IH]; intros v f s r HRd HS HR HN HA HF; cbn [report fst snd].
  - exists v. split; [reflexivity|]. split; [constructor; auto using keeps_strings_refl|]. auto.
  - inversion HF as [|? ? HF1 HF2]; subst. cbn [fst] in HF1.
    destruct (C99_add X v a d f q x y z s r HRd HS HR HN HA HF1) as (v1 & E1 & HO1 & HR1 & HA1). rewrite E1. cbn [bind].
    destruct (IH v1 (fun r => if r =? q then Some (x, y, z) else f r) s r) as (v2 & E2 & HO2 & HR2 & HA2); auto.
    + rewrite (ot_state _ _ _ HO1). exact HRd.
    + rewrite (ot_stacks _ _ _ HO1). exact HS.
    + eapply neighbors_at_mono; [apply HO1|apply HO1|exact HN].
    + exists v2. split; [exact E2|]. split; [eapply only_trans; eauto|]. split; [exact HR2|]. eapply neighbors_are_ext; [|exact HA2].
      intro w. cbn beta. unfold last_pose. cbn [rev]. rewrite find_app. destruct (find (fun e => fst e =? w) (rev l)) as [e|]; [reflexivity|]. cbn [find fst].
      rewrite (Z.eqb_sym q w). destruct (w =? q); reflexivity.
Qed.

Lemma count_entries td l : built int_key td -> Forall int32_range l -> (forall r, int32_range r -> (exists x, tab_get td (OInt r) = Ok (Some x)) <-> In r l) ->
  zlen (pentries td) = zlen (nodup Z.eq_dec l).
Proof.
  intros HB HL Hf. apply int_built in HB. destruct (C50_entries false (fun _ => -1) td HB) as (K1 & K2 & K3).
  assert (HP : Permutation (map fst (pentries td)) (map OInt (nodup Z.eq_dec l))).
  { apply NoDup_Permutation.
    - clear - K1 K3. revert K3. generalize (fun k x H => proj1 (K1 k x H)). clear K1. generalize (pentries td) as es. induction es as [|[k x] es IH]; intros K1 K3; cbn [map]; constructor.
      + inversion K3 as [|? ? H1 _]; subst. rewrite Forall_forall in H1. intro Hin. apply in_map_iff in Hin as ([k' x'] & E & Hin). cbn in E. subst k'. specialize (H1 _ Hin). cbn [fst] in H1.
        pose proof (K1 k x (or_introl eq_refl)) as Hk. rewrite int_key_class in Hk. destruct k; cbn in Hk; try discriminate. cbn [same_key] in H1. rewrite Z.eqb_refl in H1. discriminate.
      + inversion K3; subst. apply IH; auto. intros k' x' H'. apply K1 with (x := x'). right. auto.
    - apply FinFun.Injective_map_NoDup; [intros p q E; inversion E; reflexivity|apply NoDup_nodup].
    - intro k. split; intro H.
      + apply in_map_iff in H as ([k' x] & E & Hin). cbn in E. subst k'. destruct (K1 k x Hin) as (A & B). rewrite int_key_class in A. destruct k; cbn in A; try discriminate.
        apply in_map. apply nodup_In. apply Hf; eauto. unfold int32_range, int32_rangeb in *. lia.
      + apply in_map_iff in H as (r & <- & Hin). apply nodup_In in Hin. rewrite Forall_forall in HL. pose proof (HL r Hin) as Hr. destruct (proj2 (Hf r Hr) Hin) as (x & Hx).
        assert (Hc : key_class false (fun _ => -1) (OInt r) = true) by (rewrite int_key_class; cbn; unfold int32_range, int32_rangeb in *; lia).
        destruct (K2 (OInt r) x Hc Hx) as (k' & Hk' & Hs). destruct k'; cbn [same_key] in Hs; try discriminate.
        * apply Z.eqb_eq in Hs. subst. apply in_map_iff. exists (OInt z, x). auto.
        * destruct (K1 _ _ Hk') as (A & _). rewrite int_key_class in A. discriminate. }
  pose proof (Permutation_length HP) as HPl. rewrite !map_length in HPl. unfold zlen. lia.
Qed.

(** After a step of the controller the neighbors are exactly the robots it reported, each with the data reported last; neither the
    operand stack nor anything else of the script changed. *)
Theorem C99_step :
  forall X (v : vm X) a t l s r,
    v_state v = S_READY -> v_stacks v = s :: r -> room_for add_names (v_str v) -> neighbors_at v a -> tab_at v a = Ok t -> made (v_str v) t ->
    Forall (fun e => int32_range (fst e)) l ->
    exists v' d, new_neighbors l v = Ok v' /\ only_tables [a] v v' /\ room_for add_names (v_str v') /\ neighbors_at v' a /\
      neighbors_are v' a d (last_pose l) /\
      exists td, tab_at v' d = Ok td /\ zlen (pentries td) = zlen (nodup Z.eq_dec (map fst l)).
Proof.
  intros X v a t l s r HRd HS HR HN HT HM HF. unfold new_neighbors.
  destruct (C99_reset X v a t s r HRd HS HR HN HT HM) as (v1 & t1 & E1 & HO1 & HR1 & HA1 & _). rewrite E1. cbn [bind].
  pose proof (neighbors_at_mono v v1 a (ot_strings _ _ _ HO1) (ot_gsyms _ _ _ HO1) HN) as HN1.
  destruct (report_ok a (zlen (v_heap v)) l v1 (fun _ => None) s r) as (v2 & E2 & HO2 & HR2 & HA2); auto.
  - rewrite (ot_state _ _ _ HO1). exact HRd. - rewrite (ot_stacks _ _ _ HO1). exact HS.
  - assert (HA3 : neighbors_are v2 a (zlen (v_heap v)) (last_pose l)). { eapply neighbors_are_ext; [|exact HA2]. intro q. cbn beta. destruct (last_pose l q); reflexivity. }
    exists v2, (zlen (v_heap v)). split; [exact E2|]. split; [eapply only_new; eauto; lia|]. split; [exact HR2|].
    split; [eapply neighbors_at_mono; [apply HO2|apply HO2|exact HN1]|]. split; [exact HA3|].
    destruct HA3 as (_ & _ & td & Ht & HB & Hf). exists td. split; [exact Ht|]. apply count_entries; auto.
    + rewrite Forall_forall in *. intros q Hq. apply in_map_iff in Hq as (e & <- & He). auto.
    + intros q Hq. specialize (Hf q Hq). unfold last_pose in Hf. destruct (find (fun e => fst e =? q) (rev l)) as [e|] eqn:Ef.
      * apply find_some in Ef as [A B]. apply in_rev in A. split; [intros _; apply in_map_iff; exists e; split; [lia|exact A]|]. intros _. destruct Hf as (w & _ & _ & Hw & _). eauto.
      * split; [intros (x & Hx); rewrite Hf in Hx; discriminate|]. intro Hin. apply in_map_iff in Hin as (e & Ee & He). apply in_rev in He. pose proof (find_none _ _ Ef e He). cbn beta in *. lia.
Qed.
Print Assumptions C99_step.

(** ** new *)
Lemma method_in fid a l L : Forall2 (method_of fid a) l L -> forall m, In m l -> exists f, In f L /\ method_of fid a m f.
Proof.
  induction 1 as [|n f l L H HM IH]; intros m Hm; [destruct Hm|]. destruct Hm as [->|Hm]; [exists f; split; [left|]; auto|].
  destruct (IH m Hm) as (g & A & B). exists g. split; [right|]; auto.
Qed.
Definition new_names : list string := methods ++ ["broadcast"; "listen"; "ignore"; "neighbors"]%string.
(** buzzneighbors_new makes the global variable neighbors: a table with the methods and without any neighbor. *)
Theorem C99_new :
  forall X fid (v : vm X) s r,
    v_state v = S_READY -> v_stacks v = s :: r -> room_for new_names (v_str v) -> stored_globals (v_gsyms v) ->
    exists v' t, neighbors_new fid v = Ok v' /\
      let a := zlen (v_heap v) in
      neighbors_at v' a /\ tab_at v' a = Ok t /\ made (v_str v') t /\ no_field t "poses" /\ has_methods fid (v_str v') a t /\
      (forall m, In m ["broadcast"; "listen"; "ignore"]%string -> field (v_str v') t m (OClos false (sign32 (fid m)) [OTab a])) /\
      v_state v' = S_READY /\ v_stacks v' = v_stacks v /\ v_lsymts v' = v_lsymts v /\ v_pc v' = v_pc v /\ v_heap v' = v_heap v ++ [t] /\
      keeps_strings (v_str v) (v_str v') /\
      (forall sid, sm_get (v_str v') sid <> Some (bs "neighbors") -> gsym_get (v_gsyms v') sid = gsym_get (v_gsyms v) sid).
Proof.
  intros X fid v s r HRd HS HR HG. unfold neighbors_new. rewrite HRd. cbn [is_ready negb]. 
  pose proof (st3_self v _ _ HS) as Ev.
  destruct (make_ok fid new_names v (v_str v) (v_heap v) s HR ltac:(intros m Hm; apply in_or_app; left; exact Hm)) as (sm1 & t1 & L1 & E1 & HK1 & HR1 & HF1 & HM1).
  rewrite <- Ev in E1. rewrite E1. cbn [bind]. clear E1. change (v_state (st3 v sm1 (v_heap v ++ [t1]) s)) with (v_state v). rewrite HRd. cbn [is_ready negb].
  set (a := zlen (v_heap v)) in *. assert (Ha : 0 <= a) by (unfold a, zlen; lia).
  destruct (regs_ok fid new_names v s a Ha ["broadcast"; "listen"; "ignore"]%string sm1 (v_heap v ++ [t1]) t1 L1 (at_new _ _) HR1 ltac:(intros m Hm; apply in_or_app; right; cbn in *; tauto) HF1) as (sm2 & t2 & L2 & E2 & HK2 & HR2 & HF2 & HM2).
  { rewrite (method_names fid _ _ _ HM1). apply (NoDup_count_occ' (list_eq_dec Z.eq_dec)). intros x Hx. cbn in Hx. repeat (destruct Hx as [<-|Hx]; [vm_compute; reflexivity|]). destruct Hx. }
  { repeat constructor. }
  rewrite E2. cbn [bind]. clear E2.
  assert (Eh : upd (v_heap v ++ [t1]) (Z.to_nat a) t2 = v_heap v ++ [t2]) by (unfold a, zlen; rewrite Nat2Z.id; apply upd_snoc). rewrite Eh. clear Eh.
  destruct (name_ok v sm2 (v_heap v ++ [t2]) s "neighbors" new_names HR2 ltac:(apply in_or_app; right; cbn; tauto)) as (sm3 & id & E3 & Hid & Hg & HK3 & HR3 & HU).
  rewrite E3. cbn [bind]. clear E3. rewrite st3_push.
  eexists. exists t2. split.
  { unfold vm_gstore, stack_assert, type_assert. change (stack (st3 v sm3 (v_heap v ++ [t2]) (OTab a :: OStr id (bs "neighbors") :: s))) with (OTab a :: OStr id (bs "neighbors") :: s).
    replace (zlen (OTab a :: OStr id (bs "neighbors") :: s) - 2 <? 0) with false by (unfold zlen; cbn [length]; lia).
    change (stack_at (st3 v sm3 (v_heap v ++ [t2]) (OTab a :: OStr id (bs "neighbors") :: s)) 2) with (@Ok obj (OStr id (bs "neighbors"))). cbn [bind otype]. change (T_STRING =? T_STRING) with true. cbv iota. reflexivity. }
  change (gsym_set (v_gsyms (st3 v sm3 (v_heap v ++ [t2]) (OTab a :: OStr id (bs "neighbors") :: s))) id (OTab a)) with (gsym_set (v_gsyms v) id (OTab a)).
  cbv zeta. set (v' := set_gsyms _ _). change (v_str v') with sm3. change (v_heap v') with (v_heap v ++ [t2]). change (v_gsyms v') with (gsym_set (v_gsyms v) id (OTab a)).
  assert (HF3 : flds sm3 t2 (L1 ++ L2)) by (eapply flds_mono; eauto).
  assert (HNm : map f_name (L1 ++ L2) = map bs (methods ++ ["broadcast"; "listen"; "ignore"]%string)) by (rewrite !map_app, (method_names fid _ _ _ HM1), (method_names fid _ _ _ HM2); reflexivity).
  split. { exists id. split; [exact Hid|]. split; [exact Hg|]. change (v_gsyms v') with (gsym_set (v_gsyms v) id (OTab a)). rewrite (get_stored (fun _ => 0) 0 _ _ _ _ HG), Z.eqb_refl. reflexivity. }
  split; [apply tab_at_nth; split; [exact Ha|apply at_new]|].
  split. { exists (map fld_op (L1 ++ L2)). split; [|apply (fl_hist _ _ _ HF3)]. rewrite Forall_forall. intros o Ho. apply in_map_iff in Ho as (f & <- & Hf).
    pose proof (fl_ok _ _ _ HF3) as HO. rewrite Forall_forall in HO. destruct (HO f Hf) as (A & B & C). cbn. auto. }
  split. { intros sid Hs. apply (flds_none sm3 t2 (L1 ++ L2) (bs "poses") sid HF3); auto. rewrite HNm. intro Q. vm_compute in Q. repeat (destruct Q as [Q|Q]; [discriminate Q|]). exact Q. }
  split; [intros m Hm; exact (method_field fid sm3 a t2 methods L1 L2 HF3 HM1 m Hm)|].
  split.
  { intros m Hm. destruct (method_in fid a _ _ HM2 m Hm) as (f & Hf & Hn & Hv). assert (Hin : In f (L1 ++ L2)) by (apply in_or_app; auto).
    pose proof (flds_get _ _ _ _ HF3 Hin) as Hget. pose proof (fl_ok _ _ _ HF3) as HO. rewrite Forall_forall in HO. destruct (HO f Hin) as (A & B & _).
    rewrite Hn in *. rewrite Hv in Hget. exists (f_id f). auto. }
  split; [exact HRd|]. split; [cbn; rewrite HS; reflexivity|]. do 3 (split; [reflexivity|]).
  split; [exact (keeps_strings_trans _ _ _ (keeps_strings_trans _ _ _ HK1 HK2) HK3)|].
  intros sid Hsid. rewrite (get_stored (fun _ => 0) 0 _ _ _ _ HG). destruct (Z.eqb_spec id sid) as [<-|]; [congruence|reflexivity].
Qed.
Print Assumptions C99_new.

(** ** Concrete reports *)
(** A VM without strings; robot 3 is reported twice, robot 5 once. *)
Definition rep_start : vm unit := mkVm 0 0 [[OInt 99]] [mkLs [] false] (pnew 20) [] sm_new [] S_READY E_NONE tt.
Definition rep_new : vm unit := match neighbors_new (fun n => zlen (bs n)) rep_start with Ok v => v | _ => rep_start end.
Definition rep_list : list (Z * pose) :=
  [(3, (f_of_Z 100, f_zero, f_zero)); (5, (f_of_Z 250, f_half, f_zero)); (3, (f_of_Z 80, f_two, f_half))].
Definition rep_vm : vm unit := match new_neighbors rep_list rep_new with Ok v => v | _ => rep_new end.
(** The script calls a method of neighbors. *)
Definition rep_call (args : list obj) : vm unit :=
  set_stacks (set_lsymts rep_vm [mkLs (map Some (OTab 0 :: args)) false; mkLs [] false]) [[]; [OInt 30; OInt 99]].
Definition rep_entry (r : Z) : option (list obj) :=
  match ready_top (nb_get (rep_call [OInt r])) with
  | Some (OTab e, h) => option_map (fun t => map snd (pentries t)) (nth_error h (Z.to_nat e))
  | _ => None
  end.
Example C99_nontrivial :
  room_for new_names (v_str rep_start) /\ stored_globals (v_gsyms rep_start) /\ v_stacks rep_start = [[OInt 99]] /\
  neighbors_new (fun n => zlen (bs n)) rep_start = Ok rep_new /\
  (v_state rep_new = S_READY /\ v_stacks rep_new = [[OInt 99]] /\ room_for add_names (v_str rep_new) /\ neighbors_at rep_new 0 /\
   exists t, tab_at rep_new 0 = Ok t /\ made (v_str rep_new) t) /\
  new_neighbors rep_list rep_new = Ok rep_vm /\ v_stacks rep_vm = [[OInt 99]] /\
  option_map fst (ready_top (nb_count (rep_call []))) = Some (OInt 2) /\
  rep_entry 3 = Some [OFloat (f_of_Z 80); OFloat f_two; OFloat f_half] /\
  rep_entry 5 = Some [OFloat (f_of_Z 250); OFloat f_half; OFloat f_zero] /\ rep_entry 4 = None.
Proof.
  assert (H0 : room_for new_names (v_str rep_start)).
  { split; [exists []; eexists; split; [reflexivity|exact I]|]. exists new_names. split; [auto|vm_compute; reflexivity]. }
  assert (HG : stored_globals (v_gsyms rep_start)) by (exists []; reflexivity).
  assert (HN : neighbors_new (fun n => zlen (bs n)) rep_start = Ok rep_new) by (vm_compute; reflexivity).
  assert (HR : room_for add_names (v_str rep_new)).
  { split; [|exists add_names; split; [auto|vm_compute; reflexivity]].
    exists (map (fun n => SmReg (bs n) true) new_names). eexists. split; [vm_compute; reflexivity|vm_compute; repeat split]. }
  destruct (C99_new unit (fun n => zlen (bs n)) rep_start [OInt 99] [] eq_refl eq_refl H0 HG) as (v' & t & E & A & B & C & _).
  rewrite HN in E. assert (Q : v' = rep_new) by (symmetry; exact (f_equal (fun r => match r with Ok x => x | _ => rep_start end) E)). rewrite Q in A, B, C. clear E Q.
  split; [exact H0|]. split; [exact HG|]. split; [reflexivity|]. split; [exact HN|].
  split. { split; [vm_compute; reflexivity|]. split; [vm_compute; reflexivity|]. split; [exact HR|]. split; [exact A|]. exists t. auto. }
  vm_compute. repeat split.
Qed.
