(** C98: the methods of neighbors see exactly the entries in its field "poses". *)
From Coq Require Import String.
From Verif Require Import Base ListLemmas Float Dict PDict PDictKeys Strman StrmanSpec StrmanProofs Obj ObjSpec ObjProofs Instr Vm VmSpec VmProofs
  PropsVmData Text Strlib CFunSpec CFunProofs PropsStrlib WireProofs SwarmExecSpec PropsSwarmExec TableLib TableLibSpec TableLibProofs PropsTableLib
  PropsVm NeighborsVm NeighborsVmSpec NeighborsVmProofs.
Local Open Scope Z_scope.
Local Open Scope list_scope.

Section St.
Context {X : Type}.
Implicit Types v : vm X.
Lemma lload_st3 v sm h st l L i o : v_lsymts v = mkLs (map Some l) false :: L -> 0 <= i -> nth_error l (Z.to_nat i) = Some o ->
  vm_lload (st3 v sm h st) i = Ok (st3 v sm h (o :: st)).
Proof. intros HL Hi HN. rewrite (lload_ok (st3 v sm h st) l L i o HL Hi HN). reflexivity. Qed.
Lemma frame_st3 v sm h st a args ra s rest L : method_called v a args ra s rest L -> frame_is st ra s rest (mkLs (map Some (OTab a :: args)) false) L (st3 v sm h st).
Proof. intros [HS HL _]. split; [cbn; rewrite HS; reflexivity|exact HL]. Qed.
Lemma ret1_gives v sm r st a args ra s rest L : method_called v a args ra s rest L -> keeps_strings (v_str v) sm ->
  exists v', vm_ret1 (st3 v sm (v_heap v) (r :: st)) = Ok v' /\ gives v ra s rest L r v'.
Proof.
  intros [HS HL HR] HK. eexists. split; [eapply ret1_ok with (ra := ra) (s := s) (rest := rest) (L := L) (t := st); [cbn; rewrite HS; reflexivity|exact HL]|].
  constructor; cbn; auto.
Qed.
Lemma ret0_gives v sm st a args ra s rest L : method_called v a args ra s rest L -> keeps_strings (v_str v) sm ->
  exists v', vm_ret0 (st3 v sm (v_heap v) st) = Ok v' /\ gives v ra s rest L ONil v'.
Proof.
  intros [HS HL HR] HK. eexists. split; [eapply ret0_ok with (ra := ra) (s := s) (rest := rest) (L := L) (t := st); [cbn; rewrite HS; reflexivity|exact HL]|].
  constructor; cbn; auto.
Qed.
Lemma lnum_st v a args ra s rest L : method_called v a args ra s rest L -> lnum v = Ok (zlen args).
Proof. intros [HS HL HR]. rewrite (lnum_ok _ _ _ HL). f_equal. unfold zlen. cbn [length]. lia. Qed.
End St.
Ltac count_args HM := unfold lnum_assert; rewrite (lnum_st _ _ _ _ _ _ _ HM); cbn [bind]; match goal with |- context [zlen ?l =? ?k] => change (zlen l =? k) with true end; cbv iota.
Ltac count_args_in HM H := unfold lnum_assert in H; rewrite (lnum_st _ _ _ _ _ _ _ HM) in H; cbn [bind] in H; match type of H with context [zlen ?l =? ?k] => change (zlen l =? k) with true in H end; cbv iota in H.

(** ** get and count *)
(** neighbors.get(k) gives the entry for k: nil when there is none. *)
Theorem C98_get :
  forall X (v : vm X) a d t k r ra s rest L,
    room_for ["poses"%string] (v_str v) -> method_called v a [k] ra s rest L -> holds v a (Some d) -> tab_at v d = Ok t ->
    is_key k = true -> tab_get t k = Ok r ->
    exists v', nb_get v = Ok v' /\ gives v ra s rest L (match r with Some o => o | None => ONil end) v'.
Proof.
  intros X v a d t k r ra s rest L HR HM HH Ht Hk Hr. unfold nb_get. count_args HM.
  destruct (load_poses_ok v a (Some d) _ _ _ _ _ _ HR (or_introl eq_refl) HM HH) as (sm & E & HK & _). rewrite E. cbn [bind].
  change (stack_at (st3 v sm (v_heap v) [opt_tab (Some d)]) 1) with (@Ok obj (OTab d)). cbn [bind].
  rewrite (lload_st3 v sm (v_heap v) _ _ L 1 k (mc_locals _ _ _ _ _ _ _ HM) ltac:(lia) eq_refl). cbn [bind].
  unfold tab_at in Ht. destruct (0 <=? d) eqn:Ed; [|discriminate]. destruct (nth_error (v_heap v) (Z.to_nat d)) eqn:En; inversion Ht; subst.
  cbn [opt_tab]. rewrite (tget_st3 v sm (v_heap v) [] k d t r Hk ltac:(lia) En Hr). cbn [bind].
  exact (ret1_gives v sm _ _ a _ ra s rest L HM HK).
Qed.
Print Assumptions C98_get.

(** neighbors.count() gives the number of entries. *)
Theorem C98_count :
  forall X (v : vm X) a d t ra s rest L,
    room_for ["poses"%string] (v_str v) -> method_called v a [] ra s rest L -> holds v a (Some d) -> tab_at v d = Ok t -> psize t < 2 ^ 31 ->
    exists v', nb_count v = Ok v' /\ gives v ra s rest L (OInt (zlen (pentries t))) v'.
Proof.
  intros X v a d t ra s rest L HR HM HH Ht Hs. unfold nb_count. count_args HM.
  destruct (load_poses_ok v a (Some d) _ _ _ _ _ _ HR (or_introl eq_refl) HM HH) as (sm & E & HK & _). rewrite E. cbn [bind].
  change (stack_at (st3 v sm (v_heap v) [opt_tab (Some d)]) 1) with (@Ok obj (OTab d)). cbn [bind].
  change (tab_at (st3 v sm (v_heap v) [opt_tab (Some d)]) d) with (tab_at v d). rewrite Ht. cbn [bind]. rewrite st3_push.
  replace (sign32 (psize t)) with (zlen (pentries t)); [exact (ret1_gives v sm _ _ a _ ra s rest L HM HK)|].
  symmetry. apply sign32_small. unfold psize, zlen in *. lia.
Qed.
Print Assumptions C98_count.

(** ** No neighbors *)
(** Without "poses" (before the robot heard of any neighbor), get gives nil, count 0, foreach calls nothing and reduce gives
    its initial value. *)
Theorem C98_none :
  forall X flist powf code size fuel (v : vm X) a args ra s rest L,
    room_for ["poses"%string] (v_str v) -> method_called v a args ra s rest L -> holds v a None ->
    (forall k, args = [k] -> exists v', nb_get v = Ok v' /\ gives v ra s rest L ONil v') /\
    (args = [] -> exists v', nb_count v = Ok v' /\ gives v ra s rest L (OInt 0) v') /\
    (forall c, args = [c] -> exists v', nb_foreach flist powf code size fuel v = Ok v' /\ gives v ra s rest L ONil v') /\
    (forall c x, args = [c; x] -> exists v', nb_reduce flist powf code size fuel v = Ok v' /\ gives v ra s rest L x v').
Proof.
  intros X flist powf code size fuel v a args ra s rest L HR HM HH.
  destruct (load_poses_ok v a None _ _ _ _ _ _ HR (or_introl eq_refl) HM HH) as (sm & E & HK & _).
  split; [|split; [|split]].
  - intros k ->. unfold nb_get. count_args HM. rewrite E. cbn [bind]. change (stack_at (st3 v sm (v_heap v) [opt_tab None]) 1) with (@Ok obj ONil). cbn [bind]. rewrite st3_push.
    exact (ret1_gives v sm _ _ a _ ra s rest L HM HK).
  - intros ->. unfold nb_count. count_args HM. rewrite E. cbn [bind]. change (stack_at (st3 v sm (v_heap v) [opt_tab None]) 1) with (@Ok obj ONil). cbn [bind]. rewrite st3_push.
    exact (ret1_gives v sm _ _ a _ ra s rest L HM HK).
  - intros c ->. unfold nb_foreach. count_args HM. rewrite E. cbn [bind]. change (stack_at (st3 v sm (v_heap v) [opt_tab None]) 1) with (@Ok obj ONil). cbn [bind].
    exact (ret0_gives v sm _ a _ ra s rest L HM HK).
  - intros c x ->. unfold nb_reduce. count_args HM. rewrite E. cbn [bind]. change (stack_at (st3 v sm (v_heap v) [opt_tab None]) 1) with (@Ok obj ONil). cbn [bind].
    rewrite (lload_st3 v sm (v_heap v) _ _ L 2 x (mc_locals _ _ _ _ _ _ _ HM) ltac:(lia) eq_refl). cbn [bind].
    change (stack_at (st3 v sm (v_heap v) (x :: [opt_tab None])) 1) with (@Ok obj x). cbn [bind].
    exact (ret1_gives v sm _ _ a _ ra s rest L HM HK).
Qed.
Print Assumptions C98_none.

(** ** foreach and reduce *)
Lemma closure_st3 {X} (v : vm X) sm h st a c args ra s rest L k : method_called v a (c :: args) ra s rest L -> otype c = T_CLOSURE ->
  closure_arg (st3 v sm h st) k = k (st3 v sm h (c :: st)) c.
Proof.
  intros HM HC. unfold closure_arg. rewrite (lload_st3 v sm h st _ L 1 c (mc_locals _ _ _ _ _ _ _ HM) ltac:(lia) eq_refl). cbn [bind].
  unfold type_assert. change (stack_at (st3 v sm h (c :: st)) 1) with (@Ok obj c). cbn [bind]. rewrite HC. reflexivity.
Qed.

(** neighbors.foreach(f) calls f once for each entry with the key and the value, and gives nil: when f does not change the
    entries. *)
Theorem C98_foreach :
  forall X flist powf code size fuel (v v' : vm X) a d t ref act ra s rest L,
    Forall c_function_ok flist -> room_for ["poses"%string] (v_str v) ->
    method_called v a [OClos true ref act] ra s rest L -> holds v a (Some d) -> table_of v d = Some t ->
    keeps flist powf code size ref act d ->
    nb_foreach flist powf code size fuel v = Ok v' -> v_state v' = S_READY ->
    exists sm rs, keeps_strings (v_str v) sm /\ length rs = length (pentries t) /\
      runs flist powf code size ref act same_world (set_str v sm) (entry_calls (pentries t) rs) v' /\
      v_stacks v' = (ONil :: s) :: rest /\ v_lsymts v' = L /\ v_pc v' = ra.
Proof.
  intros X flist powf code size fuel v v' a d t ref act ra s rest L HF HR HM HH HT HKp H HRd.
  unfold nb_foreach in H. count_args_in HM H.
  destruct (load_poses_ok v a (Some d) _ _ _ _ _ _ HR (or_introl eq_refl) HM HH) as (sm & E & HK & _). rewrite E in H. cbn [bind] in H.
  change (stack_at (st3 v sm (v_heap v) [opt_tab (Some d)]) 1) with (@Ok obj (OTab d)) in H. cbn [bind] in H.
  rewrite (closure_st3 v sm (v_heap v) _ a _ _ _ _ _ _ _ HM eq_refl) in H. cbv beta in H.
  set (v1 := st3 v sm (v_heap v) _) in H.
  destruct (walk fuel d _ 0 0 v1) as [v2| | |] eqn:EW; cbn [bind] in H; try discriminate.
  pose proof (ret0_world _ _ H HRd) as (W & HR2).
  assert (HSt : forall w k x, v_state w <> S_READY -> nb_foreach_entry flist powf code size fuel (OClos true ref act) w k x = Ok w)
    by (intros w k x Hw; unfold nb_foreach_entry; destruct (v_state w); try congruence; reflexivity).
  set (lsy := mkLs (map Some (OTab a :: [OClos true ref act])) false).
  destruct (walk_each code size d t (nb_foreach_entry flist powf code size fuel (OClos true ref act)) (fun w => exists st, frame_is st ra s rest lsy L w)
    (fun v k x z => exists r w, executed flist powf code size ref act v [k; x] r w /\ same_world w z) HSt) with (n := fuel) (i := 0%nat) (j := 0%nat) (v := v1) (v' := v2) as (A & (st & B) & C); auto.
  - intros w k x w1 S1 (st & F1) T1 I1 E1 R1. unfold nb_foreach_entry in E1. rewrite S1 in E1. cbn [is_ready negb] in E1.
    destruct (callback_ok flist powf code size fuel HF _ _ _ _ _ _ _ _ _ _ _ S1 F1 E1 R1) as (r & P1 & P2).
    split; [exists r, w1; split; [exact P1|apply same_world_refl]|]. split; [eauto|]. eapply HKp; eauto.
  - exact (mc_ready _ _ _ _ _ _ _ HM).
  - eexists. apply (frame_st3 v sm (v_heap v) _ _ _ _ _ _ _ HM).
  - rewrite todo_start in A. destruct (runs_each flist powf code size ref act same_world _ (fun _ _ _ _ Q => Q) _ _ _ A) as (rs & E1 & Q).
    exists sm, rs. split; [exact HK|]. split; [exact E1|]. split.
    + eapply runs_end; [|exact W]. eapply runs_start; [|exact Q]. repeat split.
    + exact (ret0_end _ _ _ _ _ _ _ _ H HRd B).
Qed.
Print Assumptions C98_foreach.

Lemma reduce_runs {X} flist powf code size ref act (fr : obj -> vm X -> Prop) : (forall p q w, fr p w -> fr q w -> p = q) -> forall w es z,
  each (fun v k x z => exists acc r, fr acc v /\ executed flist powf code size ref act v [k; x; acc] r z /\ fr r z) w es z -> forall y, fr y w ->
  exists rs, length rs = length es /\ runs flist powf code size ref act same_world w (fold_calls es y rs) z /\ fr (last rs y) z.
Proof.
  intros HI w es z A. induction A as [w|w k x w1 l z (acc & r & P1 & P2 & P3) A IH]; intros y Fy.
  - exists []. split; [reflexivity|]. split; [constructor; repeat split|exact Fy].
  - rewrite (HI _ _ _ P1 Fy) in P2. destruct (IH r P3) as (rs & E1 & E2 & E3). exists (r :: rs). split; [cbn; lia|]. split.
    + cbn [fold_calls fst snd]. econstructor; [exact P2|apply same_world_refl|exact E2].
    + assert (EL : last (r :: rs) y = last rs r). { clear. revert r. induction rs as [|q rs IH]; intro r; [reflexivity|]. cbn in *. destruct rs; auto. }
      rewrite EL. exact E3.
Qed.
(** neighbors.reduce(f, x) calls f once for each entry with the key, the value and the result of the call before (x the
    first time), and gives the result of the last call. *)
Theorem C98_reduce :
  forall X flist powf code size fuel (v v' : vm X) a d t ref act x0 ra s rest L,
    Forall c_function_ok flist -> room_for ["poses"%string] (v_str v) ->
    method_called v a [OClos true ref act; x0] ra s rest L -> holds v a (Some d) -> table_of v d = Some t ->
    keeps flist powf code size ref act d ->
    nb_reduce flist powf code size fuel v = Ok v' -> v_state v' = S_READY ->
    exists sm rs, keeps_strings (v_str v) sm /\ length rs = length (pentries t) /\
      runs flist powf code size ref act same_world (set_str v sm) (fold_calls (pentries t) x0 rs) v' /\
      v_stacks v' = (last rs x0 :: s) :: rest /\ v_lsymts v' = L /\ v_pc v' = ra.
Proof.
  intros X flist powf code size fuel v v' a d t ref act x0 ra s rest L HF HR HM HH HT HKp H HRd.
  unfold nb_reduce in H. count_args_in HM H.
  destruct (load_poses_ok v a (Some d) _ _ _ _ _ _ HR (or_introl eq_refl) HM HH) as (sm & E & HK & _). rewrite E in H. cbn [bind] in H.
  change (stack_at (st3 v sm (v_heap v) [opt_tab (Some d)]) 1) with (@Ok obj (OTab d)) in H. cbn [bind] in H.
  rewrite (lload_st3 v sm (v_heap v) _ _ L 2 x0 (mc_locals _ _ _ _ _ _ _ HM) ltac:(lia) eq_refl) in H. cbn [bind] in H.
  change (stack_at (st3 v sm (v_heap v) (x0 :: [opt_tab (Some d)])) 1) with (@Ok obj x0) in H. cbn [bind] in H.
  rewrite (closure_st3 v sm (v_heap v) _ a _ _ _ _ _ _ _ HM eq_refl) in H. cbv beta in H. rewrite st3_push in H.
  set (v1 := st3 v sm (v_heap v) _) in H.
  destruct (walk fuel d _ 0 0 v1) as [v2| | |] eqn:EW; cbn [bind] in H; try discriminate.
  pose proof (ret1_world _ _ H HRd) as (W & HR2).
  set (lsy := mkLs (map Some (OTab a :: [OClos true ref act; x0])) false).
  set (fr := fun acc (w : vm X) => frame_is (acc :: [OClos true ref act; x0; OTab d]) ra s rest lsy L w).
  assert (HSt : forall w k x, v_state w <> S_READY -> reduce_entry flist powf code size fuel (OClos true ref act) w k x = Ok w)
    by (intros w k x Hw; unfold reduce_entry; destruct (v_state w); try congruence; reflexivity).
  assert (F0 : fr x0 v1) by exact (frame_st3 v sm (v_heap v) _ _ _ _ _ _ _ HM).
  destruct (walk_each code size d t (reduce_entry flist powf code size fuel (OClos true ref act)) (fun w => exists acc, fr acc w)
    (fun v k x z => exists acc r, fr acc v /\ executed flist powf code size ref act v [k; x; acc] r z /\ fr r z) HSt) with (n := fuel) (i := 0%nat) (j := 0%nat) (v := v1) (v' := v2) as (A & (acc & B) & C); eauto.
  - intros w k x w1 S1 (acc & F1) T1 I1 E1 R1.
    destruct (reduce_entry_ok flist powf code size fuel HF ref act w k x w1 _ _ _ _ _ _ _ S1 F1 E1 R1) as (r & P1 & P2).
    split; [eauto 6|]. split; [exists r; exact P2|]. eapply HKp; eauto.
  - exact (mc_ready _ _ _ _ _ _ _ HM).
  - rewrite todo_start in A.
    assert (HG : exists rs, length rs = length (pentries t) /\ runs flist powf code size ref act same_world v1 (fold_calls (pentries t) x0 rs) v2 /\ fr (last rs x0) v2).
    { apply (reduce_runs flist powf code size ref act fr); auto. intros p q w [P1 _] [P2 _]. congruence. }
    destruct HG as (rs & E1 & E2 & E3). exists sm, rs. split; [exact HK|]. split; [exact E1|]. split.
    + eapply runs_end; [|exact W]. eapply runs_start; [|exact E2]. repeat split.
    + exact (ret1_end _ _ _ _ _ _ _ _ _ H HRd E3).
Qed.
Print Assumptions C98_reduce.

(** ** map and filter *)
Definition nb_names : list string := "poses"%string :: methods.
Lemma built_ops fl sidof opf es rs tb : (forall k x r o, opf k x r = Some o -> tab_op_key o = k) ->
  (forall e, In e es -> key_class fl sidof (fst e) = true) -> tab_history tab_new (ops_of opf es rs) = Ok tb -> built (key_class fl sidof) tb.
Proof.
  intros HO HK H. exists (ops_of opf es rs). split; [|exact H]. clear H. revert rs. induction es as [|e es IH]; intros [|r rs]; cbn [ops_of]; try constructor.
  apply Forall_app. split; [|apply IH; intros; apply HK; right; auto]. destruct (opf (fst e) (snd e) r) as [o|] eqn:E; cbn [opt_list]; constructor; [|constructor].
  rewrite (HO _ _ _ _ E). apply HK. left. reflexivity.
Qed.

Section New.
Context {X : Type}.
Variable flist : list (vm X -> res (vm X)).
Variable powf : libm.
Variable code : Z -> Z.
Variable size : Z.
Variable fuel : nat.
Variable fid : string -> Z.
Variable entry : Z -> Z -> obj -> vm X -> obj -> obj -> res (vm X).
Variable opf : obj -> obj -> obj -> option tab_op.

(** The new structure of neighbors: at [b], with its entries in the table at [b + 1]. *)
Lemma new_ok fl sidof (v v' : vm X) a d t ref act ra s rest L :
  (forall d m c v k x, v_state v <> S_READY -> entry d m c v k x = Ok v) ->
  (forall d m v k x v1 st ra s rest lsy L tb, v_state v = S_READY -> frame_is st ra s rest lsy L v -> 0 <= m -> keeps flist powf code size ref act m -> table_of v m = Some tb ->
     entry d m (OClos true ref act) v k x = Ok v1 -> v_state v1 = S_READY ->
     exists r w tb', executed flist powf code size ref act v [k; x] r w /\ same_world_but m w v1 /\ frame_is st ra s rest lsy L v1 /\
       table_of v1 m = Some tb' /\ stored_as (opf k x r) tb tb') ->
  (forall k x r o, opf k x r = Some o -> tab_op_key o = k) ->
  room_for nb_names (v_str v) -> method_called v a [OClos true ref act] ra s rest L -> holds v a (Some d) -> table_of v d = Some t -> built (key_class fl sidof) t ->
  let b := zlen (v_heap v) in
  keeps flist powf code size ref act d -> keeps flist powf code size ref act b -> keeps flist powf code size ref act (b + 1) ->
  nb_new_table fuel fid entry v = Ok v' -> v_state v' = S_READY ->
  exists v0 tm rs tb,
    v_heap v0 = v_heap v ++ [tm; tab_new] /\ keeps_strings (v_str v) (v_str v0) /\ v_gsyms v0 = v_gsyms v /\ v_ext v0 = v_ext v /\
    has_methods fid (v_str v0) b tm /\ field (v_str v0) tm "poses" (OTab (b + 1)) /\
    length rs = length (pentries t) /\ runs flist powf code size ref act (same_world_but (b + 1)) v0 (entry_calls (pentries t) rs) v' /\
    v_stacks v' = (OTab b :: s) :: rest /\ v_lsymts v' = L /\ v_pc v' = ra /\
    table_of v' d = Some t /\ table_of v' b = Some tm /\ table_of v' (b + 1) = Some tb /\ built (key_class fl sidof) tb /\
    (forall i k x r, nth_error (pentries t) i = Some (k, x) -> nth_error rs i = Some r -> tab_get tb k = Ok (op_val (opf k x r))) /\
    (forall k, key_class fl sidof k = true -> tab_get t k = Ok None -> tab_get tb k = Ok None).
Proof.
  intros HSt HStep HO HR HM HH HT HB b HKd HKb HKm H HRd. unfold nb_new_table in H. count_args_in HM H.
  rewrite (lload_ok v _ L 0 (OTab a) (mc_locals _ _ _ _ _ _ _ HM) ltac:(lia) eq_refl) in H. cbn [bind] in H. rewrite (push_st3 v [] _ _ (mc_stacks _ _ _ _ _ _ _ HM)) in H.
  unfold type_assert at 1 in H. change (stack_at (st3 v (v_str v) (v_heap v) [OTab a]) 1) with (@Ok obj (OTab a)) in H. cbn [bind otype] in H. change (T_TABLE =? T_TABLE) with true in H. cbv iota in H.
  destruct (poses_get v a (Some d) nb_names (v_str v) [] HR ltac:(left; reflexivity) (keeps_strings_refl _) HR HH) as (sm1 & E1 & HK1 & HR1).
  destruct (push_name _ "poses") as [w1| | |] in H, E1; cbn [bind] in H, E1; try discriminate. rewrite E1 in H. cbn [bind] in H. clear E1 w1.
  change (stack_at (st3 v sm1 (v_heap v) [opt_tab (Some d)]) 1) with (@Ok obj (OTab d)) in H. cbn [bind] in H.
  destruct (make_ok fid nb_names v sm1 (v_heap v) [opt_tab (Some d)] HR1 ltac:(intros m Hm; right; exact Hm)) as (sm2 & t2 & L2 & E2 & HK2 & HR2 & HF2 & HM2).
  rewrite E2 in H. cbn [bind] in H. clear E2. fold b in H, HM2.
  change (v_state (st3 v sm2 (v_heap v ++ [t2]) [opt_tab (Some d)])) with (v_state v) in H. rewrite (mc_ready _ _ _ _ _ _ _ HM) in H. cbn [is_ready negb] in H. cbv zeta in H.
  rewrite st3_push in H. rewrite (closure_st3 v sm2 _ _ a _ _ _ _ _ _ _ HM eq_refl) in H. cbv beta in H. unfold new_table in H.
  set (h2 := v_heap v ++ [t2]) in *. change (v_heap (st3 v sm2 h2 [OClos true ref act; OTab b; opt_tab (Some d)])) with h2 in H.
  assert (Hh2 : zlen h2 = b + 1) by (unfold h2; rewrite zlen_app; reflexivity). rewrite Hh2 in H.
  change (set_heap (st3 v sm2 h2 [OClos true ref act; OTab b; opt_tab (Some d)]) (h2 ++ [tab_new])) with (st3 v sm2 (h2 ++ [tab_new]) [OClos true ref act; OTab b; opt_tab (Some d)]) in H.
  rewrite st3_push in H.
  destruct (name_ok v sm2 (h2 ++ [tab_new]) [OTab b; OClos true ref act; OTab b; opt_tab (Some d)] "poses" nb_names HR2 ltac:(left; reflexivity)) as (sm3 & id & E3 & Hid & Hg & HK3 & HR3 & _).
  rewrite E3 in H. cbn [bind] in H. clear E3. rewrite st3_push in H.
  destruct (flds_set sm3 t2 L2 (bs "poses") id (OTab (b + 1)) (flds_mono _ _ _ _ HK3 HF2) (poses_not_method fid b L2 HM2) eq_refl Hid Hg) as (tm & Es & HF3).
  assert (Hb : 0 <= b) by (unfold b, zlen; lia).
  assert (Hnb : nth_error (h2 ++ [tab_new]) (Z.to_nat b) = Some t2).
  { unfold h2, b, zlen. rewrite Nat2Z.id, <- app_assoc, nth_error_app2, Nat.sub_diag by lia. reflexivity. }
  rewrite (tput_st3 v sm3 (h2 ++ [tab_new]) [OClos true ref act; OTab b; opt_tab (Some d)] (OTab (b + 1)) (OStr id (bs "poses")) b t2 tm eq_refl Hb Hnb ltac:(discriminate) Es) in H.
  cbn [bind] in H.
  assert (Eh : upd (h2 ++ [tab_new]) (Z.to_nat b) tm = v_heap v ++ [tm; tab_new]).
  { unfold h2, b, zlen. rewrite Nat2Z.id, <- app_assoc. clear. induction (v_heap v) as [|x l IH]; cbn; [reflexivity|]. f_equal. exact IH. }
  rewrite Eh in H. set (v0 := st3 v sm3 (v_heap v ++ [tm; tab_new]) [OClos true ref act; OTab b; opt_tab (Some d)]) in *.
  destruct (walk fuel d _ 0 0 v0) as [v2| | |] eqn:EW; cbn [bind] in H; try discriminate.
  pose proof (ret1_world _ _ H HRd) as (W & HR2').
  assert (Hlt : (Z.to_nat d < Z.to_nat b)%nat). { unfold b, zlen. rewrite Nat2Z.id. apply nth_error_Some. unfold table_of in HT. congruence. }
  assert (HTb : table_of v0 b = Some tm).
  { unfold table_of, v0, b, zlen. cbn [v_heap st3]. rewrite Nat2Z.id, nth_error_app2, Nat.sub_diag by lia. reflexivity. }
  assert (HTm : table_of v0 (b + 1) = Some tab_new).
  { unfold table_of, v0, b, zlen. cbn [v_heap st3]. rewrite nth_error_app2 by lia. replace (Z.to_nat (Z.of_nat (length (v_heap v)) + 1) - length (v_heap v))%nat with 1%nat by lia. reflexivity. }
  assert (HTd : table_of v0 d = Some t).
  { unfold table_of, v0. cbn [v_heap st3]. rewrite nth_error_app1; [exact HT|]. unfold b, zlen in Hlt. rewrite Nat2Z.id in Hlt. exact Hlt. }
  set (lsy := mkLs (map Some (OTab a :: [OClos true ref act])) false).
  set (st := [OClos true ref act; OTab b; opt_tab (Some d)]).
  destruct (walk_each code size d t (entry d (b + 1) (OClos true ref act))
    (fun w => frame_is st ra s rest lsy L w /\ table_of w b = Some tm /\ exists tb, table_of w (b + 1) = Some tb)
    (building flist powf code size ref act (b + 1) opf) (HSt d (b + 1) _)) with (n := fuel) (i := 0%nat) (j := 0%nat) (v := v0) (v' := v2) as (A & (B & HTb2 & tb & HTm2) & C); auto.
  - intros w k x w1 S1 (F1 & Tb & tb & Tm) T1 I1 E1 R1.
    destruct (HStep d (b + 1) w k x w1 _ _ _ _ _ _ _ S1 F1 ltac:(lia) HKm Tm E1 R1) as (r & w2 & tb' & P1 & P2 & P3 & P4 & P5).
    split; [exists r, w2, tb, tb'; auto|]. split.
    + split; [exact P3|]. split; [|exists tb'; exact P4]. unfold table_of. rewrite (proj1 P2) by lia. eapply HKb; eauto.
    + unfold table_of. rewrite (proj1 P2) by lia. eapply HKd; eauto.
  - exact (mc_ready _ _ _ _ _ _ _ HM).
  - split; [exact (frame_st3 v sm3 _ st _ _ _ _ _ _ HM)|]. eauto.
  - rewrite todo_start in A. destruct (each_built _ _ _ _ _ _ _ _ _ _ _ A) as (rs & E1 & E2 & E3).
    destruct (E3 _ HTm) as (tb' & T1 & T2). rewrite T1 in HTm2. inversion HTm2; subst tb'.
    pose proof (C50_entries fl sidof t HB) as (K1 & _ & K3).
    destruct (build_ok fl sidof opf HO (pentries t) rs tab_new tb (twf_new _ _ _ (good_class fl sidof)) E1) as (Q1 & Q2); auto.
    { intros [k x] He. apply (K1 k x He). }
    exists v0, tm, rs, tb. split; [reflexivity|]. split; [exact (keeps_strings_trans _ _ _ (keeps_strings_trans _ _ _ HK1 HK2) HK3)|]. split; [reflexivity|]. split; [reflexivity|].
    split; [intros m Hm; exact (method_field fid sm3 b tm methods L2 _ HF3 HM2 m Hm)|].
    split. { exists id. split; [exact Hid|]. split; [exact Hg|]. apply (flds_get sm3 tm _ (mkFld (bs "poses") id (OTab (b + 1))) HF3). apply in_or_app. right. left. reflexivity. }
    split; [exact E1|]. split; [eapply runs_end; [exact E2|exact W]|].
    assert (B' : frame_is (OTab b :: st) ra s rest lsy L (push v2 (OTab b))).
    { destruct B as [B1 B2]. split; [|exact B2]. cbn. unfold stack. rewrite B1. reflexivity. }
    destruct (ret1_end _ _ _ _ _ _ _ _ _ H HRd B') as (Y1 & Y2 & Y3).
    split; [exact Y1|]. split; [exact Y2|]. split; [exact Y3|].
    split; [rewrite (table_world _ _ _ W); exact C|]. split; [rewrite (table_world _ _ _ W); exact HTb2|]. split; [rewrite (table_world _ _ _ W); exact T1|]. split.
    + apply (built_ops fl sidof opf (pentries t) rs tb HO); [intros [k x] He; apply (K1 k x He)|exact T2].
    + split.
      * intros i k x r Ei Er. pose proof (K1 k x (nth_error_In _ _ Ei)) as (Kk & _). apply (Q1 i k x r Ei Er (new_get fl sidof k Kk)).
      * intros k Hk HN. rewrite (Q2 k Hk (absent_key fl sidof t k HB Hk HN)). apply (new_get fl sidof). exact Hk.
Qed.
(** Without "poses". *)
Lemma new_none (v : vm X) a c ra s rest L :
  room_for nb_names (v_str v) -> method_called v a [c] ra s rest L -> holds v a None ->
  let b := zlen (v_heap v) in
  exists v' tm, nb_new_table fuel fid entry v = Ok v' /\ v_state v' = S_READY /\ v_stacks v' = (OTab b :: s) :: rest /\ v_lsymts v' = L /\ v_pc v' = ra /\
    v_heap v' = v_heap v ++ [tm] /\ keeps_strings (v_str v) (v_str v') /\ v_gsyms v' = v_gsyms v /\ v_ext v' = v_ext v /\
    has_methods fid (v_str v') b tm /\ no_field tm "poses".
Proof.
  intros HR HM HH b. unfold nb_new_table. count_args HM.
  rewrite (lload_ok v _ L 0 (OTab a) (mc_locals _ _ _ _ _ _ _ HM) ltac:(lia) eq_refl). cbn [bind]. rewrite (push_st3 v [] _ _ (mc_stacks _ _ _ _ _ _ _ HM)).
  unfold type_assert at 1. change (stack_at (st3 v (v_str v) (v_heap v) [OTab a]) 1) with (@Ok obj (OTab a)). cbn [bind otype]. change (T_TABLE =? T_TABLE) with true. cbv iota.
  destruct (poses_get v a None nb_names (v_str v) [] HR ltac:(left; reflexivity) (keeps_strings_refl _) HR HH) as (sm1 & E1 & HK1 & HR1).
  destruct (push_name _ "poses") as [w1| | |] in E1 |- *; cbn [bind] in E1 |- *; try discriminate. rewrite E1. cbn [bind]. clear E1 w1.
  change (stack_at (st3 v sm1 (v_heap v) [opt_tab None]) 1) with (@Ok obj ONil). cbn [bind].
  destruct (make_ok fid nb_names v sm1 (v_heap v) [opt_tab None] HR1 ltac:(intros m Hm; right; exact Hm)) as (sm2 & t2 & L2 & E2 & HK2 & HR2 & HF2 & HM2).
  rewrite E2. cbn [bind]. clear E2. fold b in HM2. fold b.
  change (v_state (st3 v sm2 (v_heap v ++ [t2]) [opt_tab None])) with (v_state v). rewrite (mc_ready _ _ _ _ _ _ _ HM). cbn [is_ready negb]. cbv zeta.
  rewrite !st3_push. destruct HM as [HS HL HRd].
  eexists. exists t2. split; [eapply ret1_ok with (ra := ra) (s := s) (rest := rest) (L := L); [cbn; rewrite HS; reflexivity|exact HL]|]. cbn [v_state v_stacks v_lsymts v_pc v_heap v_str v_gsyms v_ext st3].
  do 5 (split; [auto|]). split; [exact (keeps_strings_trans _ _ _ HK1 HK2)|]. do 2 (split; [reflexivity|]). split.
  - intros m Hm. rewrite <- (app_nil_r L2) in HF2. exact (method_field fid sm2 b t2 methods L2 _ HF2 HM2 m Hm).
  - intros sid Hs. apply (flds_none sm2 t2 L2 (bs "poses") sid HF2); auto. eapply poses_not_method; eauto.
Qed.
End New.

Definition nb_map_op (k _ r : obj) : option tab_op := Some (TabSet k r).
Lemma nb_map_entry_ok {X} flist powf code size fuel b ref act (v : vm X) k x v1 st ra s rest lsy L tb : Forall c_function_ok flist ->
  v_state v = S_READY -> frame_is st ra s rest lsy L v -> 0 <= b -> keeps flist powf code size ref act b -> table_of v b = Some tb ->
  nb_map_entry flist powf code size fuel b (OClos true ref act) v k x = Ok v1 -> v_state v1 = S_READY ->
  exists r w tb', executed flist powf code size ref act v [k; x] r w /\ same_world_but b w v1 /\ frame_is st ra s rest lsy L v1 /\
    table_of v1 b = Some tb' /\ stored_as (nb_map_op k x r) tb tb'.
Proof.
  intros HC HS HF Hb HK HT H HR. unfold nb_map_entry in H. rewrite HS in H. cbn [is_ready negb] in H.
  destruct (TableLib.callback flist powf code size fuel v (OClos true ref act) [k; x]) as [w| | |] eqn:E; cbn [bind] in H; try discriminate.
  destruct (v_state w) eqn:Ew; cbn [is_ready negb] in H; try (inversion H; subst; congruence).
  destruct (callback_ok flist powf code size fuel HC _ _ _ _ _ _ _ _ _ _ _ HS HF E Ew) as (r & A & B).
  destruct (_ <=? _); [inversion H; subst; discriminate|].
  assert (Er : stack_at w 1 = Ok r) by (unfold stack_at, stack; rewrite (proj1 B); reflexivity). rewrite Er in H. cbn [bind] in H.
  pose proof (HK _ _ _ _ _ A HT) as HT'. unfold tab_at in H. replace (0 <=? b) with true in H by lia.
  unfold table_of in HT'. rewrite HT' in H. cbn [bind] in H.
  destruct (tab_set tb k r) as [tb'| | |] eqn:Et; cbn [bind] in H; try discriminate.
  inversion H; subst v1.
  assert (B' : frame_is (r :: st) ra s rest lsy L (tab_put w b tb')) by exact B.
  destruct (frame_pop _ _ _ _ _ _ _ _ B') as (C & D). rewrite C.
  exists r, w, tb'. split; [exact A|]. split; [|split; [exact D|split]].
  - destruct (put_world w b tb') as (P1 & P2). split; [exact P1|]. exact P2.
  - unfold table_of. cbn. eapply upd_same; eauto.
  - unfold stored_as, nb_map_op. cbn [tab_history]. rewrite Et. reflexivity.
Qed.

(** neighbors.map(f) calls f once for each entry and gives a new structure of neighbors (with all the methods) whose entry under
    each key is the result of the call for that key, and that has no other entries. *)
Theorem C98_map :
  forall X flist powf code size fuel fid (v v' : vm X) fl sidof a d t ref act ra s rest L,
    let b := zlen (v_heap v) in
    Forall c_function_ok flist -> room_for nb_names (v_str v) ->
    method_called v a [OClos true ref act] ra s rest L -> holds v a (Some d) -> table_of v d = Some t -> built (key_class fl sidof) t ->
    keeps flist powf code size ref act d -> keeps flist powf code size ref act b -> keeps flist powf code size ref act (b + 1) ->
    nb_map flist powf code size fuel fid v = Ok v' -> v_state v' = S_READY ->
    exists v0 tm rs tb,
      v_heap v0 = v_heap v ++ [tm; tab_new] /\ keeps_strings (v_str v) (v_str v0) /\ v_gsyms v0 = v_gsyms v /\ v_ext v0 = v_ext v /\
      has_methods fid (v_str v0) b tm /\ field (v_str v0) tm "poses" (OTab (b + 1)) /\
      length rs = length (pentries t) /\ runs flist powf code size ref act (same_world_but (b + 1)) v0 (entry_calls (pentries t) rs) v' /\
      v_stacks v' = (OTab b :: s) :: rest /\ v_lsymts v' = L /\ v_pc v' = ra /\
      table_of v' d = Some t /\ table_of v' b = Some tm /\ table_of v' (b + 1) = Some tb /\ built (key_class fl sidof) tb /\
      (forall i k x r, nth_error (pentries t) i = Some (k, x) -> nth_error rs i = Some r -> tab_get tb k = Ok (Some r)) /\
      (forall k, key_class fl sidof k = true -> tab_get t k = Ok None -> tab_get tb k = Ok None).
Proof.
  intros X flist powf code size fuel fid v v' fl sidof a d t ref act ra s rest L b HC HR HM HH HT HB HKd HKb HKm H HRd.
  refine (new_ok flist powf code size fuel fid (fun _ b c => nb_map_entry flist powf code size fuel b c) nb_map_op fl sidof v v' a d t ref act ra s rest L _ _ _ HR HM HH HT HB HKd HKb HKm H HRd).
  - intros d0 m c w k x Hw. unfold nb_map_entry. destruct (v_state w); try congruence; reflexivity.
  - intros. eapply nb_map_entry_ok; eauto.
  - intros k x r o HO. inversion HO. reflexivity.
Qed.
Print Assumptions C98_map.

(** neighbors.filter(f) calls f once for each entry and gives a new structure of neighbors (with all the methods) with those entries
    for which the call gave a true value. *)
Theorem C98_filter :
  forall X flist powf code size fuel fid (v v' : vm X) fl sidof a d t ref act ra s rest L,
    let b := zlen (v_heap v) in
    Forall c_function_ok flist -> room_for nb_names (v_str v) ->
    method_called v a [OClos true ref act] ra s rest L -> holds v a (Some d) -> table_of v d = Some t -> built (key_class fl sidof) t ->
    keeps flist powf code size ref act d -> keeps flist powf code size ref act b -> keeps flist powf code size ref act (b + 1) ->
    nb_filter flist powf code size fuel fid v = Ok v' -> v_state v' = S_READY ->
    exists v0 tm rs tb,
      v_heap v0 = v_heap v ++ [tm; tab_new] /\ keeps_strings (v_str v) (v_str v0) /\ v_gsyms v0 = v_gsyms v /\ v_ext v0 = v_ext v /\
      has_methods fid (v_str v0) b tm /\ field (v_str v0) tm "poses" (OTab (b + 1)) /\
      length rs = length (pentries t) /\ runs flist powf code size ref act (same_world_but (b + 1)) v0 (entry_calls (pentries t) rs) v' /\
      v_stacks v' = (OTab b :: s) :: rest /\ v_lsymts v' = L /\ v_pc v' = ra /\
      table_of v' d = Some t /\ table_of v' b = Some tm /\ table_of v' (b + 1) = Some tb /\ built (key_class fl sidof) tb /\
      (forall i k x r, nth_error (pentries t) i = Some (k, x) -> nth_error rs i = Some r -> tab_get tb k = Ok (if truthy r then Some x else None)) /\
      (forall k, key_class fl sidof k = true -> tab_get t k = Ok None -> tab_get tb k = Ok None).
Proof.
  intros X flist powf code size fuel fid v v' fl sidof a d t ref act ra s rest L b HC HR HM HH HT HB HKd HKb HKm H HRd.
  destruct (new_ok flist powf code size fuel fid (nb_filter_entry flist powf code size fuel) filter_op fl sidof v v' a d t ref act ra s rest L) as (v0 & tm & rs & tb & Q); auto.
  - intros d0 m c w k x Hw. unfold nb_filter_entry, filter_entry. destruct (v_state w); try congruence; reflexivity.
  - intros. eapply filter_entry_ok; eauto.
  - intros k x r o HO. unfold filter_op in HO. destruct (truthy r); inversion HO. reflexivity.
  - exists v0, tm, rs, tb. fold b in Q. decompose [and] Q. do 15 (split; [assumption|]). split; [|assumption].
    intros i k x r Ei Er. match goal with Hq : forall i k x r, nth_error (pentries t) i = _ -> _ |- _ => rewrite (Hq i k x r Ei Er) end. unfold filter_op. destruct (truthy r); reflexivity.
Qed.
Print Assumptions C98_filter.

(** Without "poses", map and filter give a structure with the methods and without "poses". *)
Theorem C98_none_new :
  forall X flist powf code size fuel fid (v : vm X) a c ra s rest L f,
    let b := zlen (v_heap v) in
    room_for nb_names (v_str v) -> method_called v a [c] ra s rest L -> holds v a None ->
    f = nb_map flist powf code size fuel fid \/ f = nb_filter flist powf code size fuel fid ->
    exists v' tm, f v = Ok v' /\ v_state v' = S_READY /\ v_stacks v' = (OTab b :: s) :: rest /\ v_lsymts v' = L /\ v_pc v' = ra /\
      v_heap v' = v_heap v ++ [tm] /\ keeps_strings (v_str v) (v_str v') /\ v_gsyms v' = v_gsyms v /\ v_ext v' = v_ext v /\
      has_methods fid (v_str v') b tm /\ no_field tm "poses".
Proof.
  intros X flist powf code size fuel fid v a c ra s rest L f b HR HM HH [-> | ->]; [apply (new_none code fuel fid _ filter_op v a c ra s rest L HR HM HH)..].
Qed.
Print Assumptions C98_none_new.

(** ** Wrong arguments *)
Definition nb_functions {X} flist powf code size fuel fid : list (Z * (vm X -> res (vm X))) :=
  [(1, nb_get); (0, nb_count); (1, nb_foreach flist powf code size fuel); (2, nb_reduce flist powf code size fuel);
   (1, nb_map flist powf code size fuel fid); (1, nb_filter flist powf code size fuel fid)].
Definition nb_iterators {X} flist powf code size fuel fid : list (Z * (vm X -> res (vm X))) :=
  [(1, nb_foreach flist powf code size fuel); (2, nb_reduce flist powf code size fuel);
   (1, nb_map flist powf code size fuel fid); (1, nb_filter flist powf code size fuel fid)].
Lemma closure_bad {X} (v : vm X) sm h st a c args ra s rest L k : method_called v a (c :: args) ra s rest L -> otype c <> T_CLOSURE ->
  exists v', closure_arg (st3 v sm h st) k = Ok v' /\ fails v' E_TYPE.
Proof.
  intros HM HC. unfold closure_arg. rewrite (lload_st3 v sm h st _ L 1 c (mc_locals _ _ _ _ _ _ _ HM) ltac:(lia) eq_refl). cbn [bind].
  unfold type_assert. change (stack_at (st3 v sm h (c :: st)) 1) with (@Ok obj c). cbn [bind].
  destruct (Z.eqb_spec (otype c) T_CLOSURE) as [E|E]; [congruence|]. eexists. split; [reflexivity|]. split; reflexivity.
Qed.
(** Wrong numbers of arguments are errors; so are arguments other than functions, when there are neighbors. *)
Theorem C98_wrong_arguments :
  forall X flist powf code size fuel fid (v : vm X) a args ra s rest L,
    method_called v a args ra s rest L ->
    (forall n f, In (n, f) (nb_functions flist powf code size fuel fid) -> zlen args <> n -> exists v', f v = Ok v' /\ fails v' E_LNUM) /\
    (forall n f d c l, In (n, f) (nb_iterators flist powf code size fuel fid) -> zlen args = n -> args = c :: l -> otype c <> T_CLOSURE ->
       room_for nb_names (v_str v) -> holds v a (Some d) -> exists v', f v = Ok v' /\ fails v' E_TYPE).
Proof.
  intros X flist powf code size fuel fid v a args ra s rest L HM. split.
  - intros n f Hf Hn.
    assert (HA : forall n K, zlen args <> n -> exists v', lnum_assert v n K = Ok v' /\ fails v' E_LNUM).
    { intros m K Hm. unfold lnum_assert. rewrite (lnum_st _ _ _ _ _ _ _ HM). cbn [bind]. replace (zlen args =? m) with false by lia. eexists. split; [reflexivity|]. split; reflexivity. }
    cbn [In nb_functions] in Hf. repeat (destruct Hf as [Hf|Hf]; [inversion Hf; subst; apply HA; exact Hn|]). destruct Hf.
  - intros n f d c l Hf Hn -> Hc HR HH.
    assert (HRp : room_for ["poses"%string] (v_str v)) by (eapply room_incl; [|exact HR]; intros m [<-|[]]; left; reflexivity).
    destruct (load_poses_ok v a (Some d) _ _ _ _ _ _ HRp (or_introl eq_refl) HM HH) as (sm & E & HK & _).
    assert (HNew : forall entry, zlen (c :: l) = 1 -> exists v', nb_new_table fuel fid entry v = Ok v' /\ fails v' E_TYPE).
    { intros entry H1. unfold nb_new_table, lnum_assert. rewrite (lnum_st _ _ _ _ _ _ _ HM). cbn [bind]. replace (zlen (c :: l) =? 1) with true by lia.
      rewrite (lload_ok v _ L 0 (OTab a) (mc_locals _ _ _ _ _ _ _ HM) ltac:(lia) eq_refl). cbn [bind]. rewrite (push_st3 v [] _ _ (mc_stacks _ _ _ _ _ _ _ HM)).
      unfold type_assert at 1. change (stack_at (st3 v (v_str v) (v_heap v) [OTab a]) 1) with (@Ok obj (OTab a)). cbn [bind otype]. change (T_TABLE =? T_TABLE) with true. cbv iota.
      destruct (poses_get v a (Some d) nb_names (v_str v) [] HR ltac:(left; reflexivity) (keeps_strings_refl _) HR HH) as (sm1 & E1 & HK1 & HR1).
      destruct (push_name _ "poses") as [w1| | |] in E1 |- *; cbn [bind] in E1 |- *; try discriminate. rewrite E1. cbn [bind]. clear E1 w1.
      change (stack_at (st3 v sm1 (v_heap v) [opt_tab (Some d)]) 1) with (@Ok obj (OTab d)). cbn [bind].
      destruct (make_ok fid nb_names v sm1 (v_heap v) [opt_tab (Some d)] HR1 ltac:(intros m Hm; right; exact Hm)) as (sm2 & t2 & L2 & E2 & _).
      rewrite E2. cbn [bind]. clear E2.
      change (v_state (st3 v sm2 (v_heap v ++ [t2]) [opt_tab (Some d)])) with (v_state v). rewrite (mc_ready _ _ _ _ _ _ _ HM). cbn [is_ready negb]. cbv zeta.
      rewrite st3_push. exact (closure_bad v sm2 _ _ a c l ra s rest L _ HM Hc). }
    cbn [In nb_iterators] in Hf. destruct Hf as [Hf|[Hf|[Hf|[Hf|[]]]]]; injection Hf as En Ef; pose proof (eq_trans Hn (eq_sym En)) as Hn'; clear Hn En; subst f.
    + unfold nb_foreach, lnum_assert. rewrite (lnum_st _ _ _ _ _ _ _ HM). cbn [bind]. replace (zlen (c :: l) =? 1) with true by lia.
      rewrite E. cbn [bind]. change (stack_at (st3 v sm (v_heap v) [opt_tab (Some d)]) 1) with (@Ok obj (OTab d)). cbn [bind].
      exact (closure_bad v sm _ _ a c l ra s rest L _ HM Hc).
    + unfold nb_reduce, lnum_assert. rewrite (lnum_st _ _ _ _ _ _ _ HM). cbn [bind]. replace (zlen (c :: l) =? 2) with true by lia.
      rewrite E. cbn [bind]. change (stack_at (st3 v sm (v_heap v) [opt_tab (Some d)]) 1) with (@Ok obj (OTab d)). cbn [bind].
      destruct l as [|x [|y l]]; unfold zlen in Hn'; cbn [length] in Hn'; try lia.
      rewrite (lload_st3 v sm (v_heap v) _ _ L 2 x (mc_locals _ _ _ _ _ _ _ HM) ltac:(lia) eq_refl). cbn [bind].
      change (stack_at (st3 v sm (v_heap v) (x :: [opt_tab (Some d)])) 1) with (@Ok obj x). cbn [bind].
      exact (closure_bad v sm _ _ a c [x] ra s rest L _ HM Hc).
    + apply HNew. exact Hn'.
    + apply HNew. exact Hn'.
Qed.
Print Assumptions C98_wrong_arguments.

(** ** Concrete calls *)
(** A structure of neighbors at 0 with its entries, 1 -> 10 and 11 -> 20, at 1; the functions are those of C50. *)
Definition nb_ops : list smop := [SmReg (bs "x") false; SmReg (bs "poses") true].
Definition nb_sm : strman := match sm_run sm_new nb_ops with Ok (sm, _) => sm | _ => sm_new end.
Definition nb_self : table := match tab_history tab_new [TabSet (OStr 1 (bs "poses")) (OTab 1)] with Ok t => t | _ => [] end.
Definition nb_vm (args : list obj) : vm unit :=
  mkVm 7 7 [[]; [OInt 30; OInt 99]; []] [mkLs (map Some (OTab 0 :: args)) false; mkLs [] false] (pnew 20) [nb_self; two_entries] nb_sm [] S_READY E_NONE tt.
Example C98_nontrivial :
  room_for nb_names nb_sm /\ (forall args, room_for ["poses"%string] (v_str (nb_vm args))) /\
  (forall args, method_called (nb_vm args) 0 args 30 [OInt 99] [[]] [mkLs [] false]) /\
  (forall args, holds (nb_vm args) 0 (Some 1)) /\ (forall args, table_of (nb_vm args) 1 = Some two_entries) /\ built (key_class false zlen) two_entries /\
  (forall ref a, 0 <= a -> keeps (X := unit) [] no_pow cb_code 62 ref [ONil] a) /\
  option_map fst (ready_top (nb_get (nb_vm [OInt 11]))) = Some (OInt 20) /\
  option_map fst (ready_top (nb_get (nb_vm [OInt 12]))) = Some ONil /\
  option_map fst (ready_top (nb_count (nb_vm []))) = Some (OInt 2) /\
  option_map fst (ready_top (nb_foreach [] no_pow cb_code 62 50 (nb_vm [cb 10]))) = Some ONil /\
  option_map fst (ready_top (nb_reduce [] no_pow cb_code 62 50 (nb_vm [cb 30; OInt 5]))) = Some (OInt 35) /\
  option_map (fun p => (fst p, map pentries (skipn 3 (snd p)))) (ready_top (nb_map [] no_pow cb_code 62 50 (fun n => zlen (bs n)) (nb_vm [cb 10])))
    = Some (OTab 2, [[(OInt 1, OInt 20); (OInt 11, OInt 40)]]) /\
  option_map (fun p => (fst p, map pentries (skipn 3 (snd p)))) (ready_top (nb_filter [] no_pow cb_code 62 50 (fun n => zlen (bs n)) (nb_vm [cb 50])))
    = Some (OTab 2, [[(OInt 11, OInt 20)]]).
Proof.
  assert (HG : exists ops outs, sm_run sm_new ops = Ok (nb_sm, outs) /\ smhist_ok sm_new ops).
  { exists nb_ops. eexists. split; [vm_compute; reflexivity|]. vm_compute. repeat split. }
  assert (HR : forall names, zlen names < 1000 -> room_for names nb_sm).
  { intros names Hn. split; [exact HG|]. exists names. split; [auto|]. change (sm_live nb_sm) with 2. lia. }
  split; [apply HR; vm_compute; reflexivity|]. split; [intros args; apply HR; vm_compute; reflexivity|].
  split; [intros args; constructor; reflexivity|].
  split. { intros args. exists nb_self. split; [reflexivity|]. exists 1. split; [lia|]. split; vm_compute; reflexivity. }
  split; [reflexivity|]. split; [apply C50_entries_nontrivial|].
  split. { intros ref a Ha. apply keeps_without_tput; [exact Ha|exact cb_no_tput]. }
  vm_compute. repeat split.
Qed.
