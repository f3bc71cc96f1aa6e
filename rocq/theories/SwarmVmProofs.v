(** The functions on swarms do what SwarmVmSpec.v says. *)
From Coq Require Import String.
From Verif Require Import Base ListLemmas Float Dict PDict Strman StrmanSpec StrmanProofs Obj ObjSpec ObjProofs Instr Vm VmSpec VmProofs PropsVmData Text CFunSpec CFunProofs Strlib PropsStrlib
  Source CompileSpec GcSpec HostSpec PropsHost NeighborsVm NeighborsVmProofs Register StdSpec StdProofs OutMsg Swarm SwarmExec SwarmVm SwarmVmSpec.
Local Open Scope Z_scope.
Local Open Scope list_scope.

Section Ok.
Context {X : Type}.
Variable fid : string -> Z.
Variable sw : X -> swst.
Variable put_sw : X -> swst -> X.
Variables (v : vm X) (st0 : sst X) (args : list obj) (ra : Z) (s : list obj) (rest : list (list obj)) (L : list lsyms) (sm0 : strman).
Hypotheses (HR : v_state v = S_READY) (HE : v_error v = E_NONE) (HS : v_stacks v = [] :: (OInt ra :: s) :: rest) (HL : v_lsymts v = mkLs (map Some args) false :: L).
Notation c_done := (c_done v st0 ra s rest L sm0).
(** The machine during the call, and the state of the language. *)
Definition W (st : sst X) (t : list obj) : vm X := st3 (set_ext v (s_ext st)) (s_str st) (s_heap st) t.
Definition good (st : sst X) : Prop := keeping sm0 (s_str st) /\ forall x, s_glob st x = s_glob st0 x.

Lemma w_push st t o : push (W st t) o = W st (o :: t). Proof. reflexivity. Qed.
Lemma w_top st t o : stack_at (W st (o :: t)) 1 = Ok o. Proof. reflexivity. Qed.
Lemma w_ret1 st t r : good st -> c_done (vm_ret1 (W st (r :: t))) (Done (r, st)).
Proof.
  intros [A B]. eexists. split; [eapply ret1_ok; [cbn; rewrite HS; reflexivity|exact HL]|]. cbn. repeat (split; [auto; fail|]). auto.
Qed.
Lemma w_ret0 st t : good st -> c_done (vm_ret0 (W st t)) (Done (ONil, st)).
Proof.
  intros [A B]. eexists. split; [eapply ret0_ok; [cbn; rewrite HS; reflexivity|exact HL]|]. cbn. repeat (split; [auto; fail|]). auto.
Qed.
Lemma w_name st t n : good st -> match new_name st (bs n) with
  | Done (k, st') => push_name (W st t) n = Ok (W st' (k :: t)) /\ good st' /\ is_key k = true /\ s_heap st' = s_heap st /\ s_ext st' = s_ext st
  | Unspec => True | _ => False end.
Proof.
  intros [A B]. unfold new_name. destruct (sm_live (s_str st) <? 65534) eqn:EL; [|exact I].
  destruct (keeping_new _ _ (bs n) true A ltac:(lia)) as (sm & id & E & Hi & HG & HK2 & _). rewrite E. split; [|split; [split; [exact HK2|exact B]|auto]].
  unfold push_name. change (v_str (W st t)) with (s_str st). rewrite E. cbn [bind]. unfold vm_pushs. rewrite wrap16_id by exact Hi. cbn [v_str set_str]. rewrite HG. reflexivity.
Qed.
Lemma w_put st t a k o : good st -> is_key k = true -> match put_val st (OTab a) k o with
  | Done st' => vm_tput (W st (o :: k :: OTab a :: t)) = Ok (W st' t) /\ good st' /\ s_ext st' = s_ext st
  | Unspec => True | _ => False end.
Proof.
  intros [A B] Hk. unfold put_val. rewrite Hk. unfold table_at. unfold vm_tput, stack_assert, type_assert. change (stack (W st (o :: k :: OTab a :: t))) with (o :: k :: OTab a :: t).
  replace (zlen (o :: k :: OTab a :: t) - 3 <? 0) with false by (unfold zlen; cbn [length]; lia).
  change (stack_at (W st (o :: k :: OTab a :: t)) 3) with (@Ok obj (OTab a)). cbn [bind otype]. change (T_TABLE =? T_TABLE) with true. cbv iota. rewrite Hk. unfold tab_at.
  change (v_heap (set_stack (W st (o :: k :: OTab a :: t)) t)) with (s_heap st).
  destruct (0 <=? a); [|exact I]. destruct (nth_error (s_heap st) (Z.to_nat a)) as [d|]; [|exact I]. cbn [obind bind].
  destruct o; match goal with |- context [of_res ?r] => destruct r as [d'| | |]; cbn [of_res obind bind]; try exact I end; (split; [reflexivity|split; [split; [exact A|exact B]|reflexivity]]).
Qed.
Lemma w_get st t o k : good st -> is_key k = true -> match get_val st o k with
  | Done x => vm_tget (W st (k :: o :: t)) = Ok (W st (x :: t)) | _ => True end.
Proof.
  intros [A B] Hk. destruct o as [| | | |a| |]; try exact I. unfold get_val. rewrite Hk. unfold table_at. unfold vm_tget, stack_assert, type_assert. change (stack (W st (k :: OTab a :: t))) with (k :: OTab a :: t).
  replace (zlen (k :: OTab a :: t) - 2 <? 0) with false by (unfold zlen; cbn [length]; lia).
  change (stack_at (W st (k :: OTab a :: t)) 2) with (@Ok obj (OTab a)). cbn [bind otype]. change (T_TABLE =? T_TABLE) with true. cbv iota. rewrite Hk. unfold tab_at.
  change (v_heap (set_stack (W st (k :: OTab a :: t)) t)) with (s_heap st).
  destruct (0 <=? a); [|exact I]. destruct (nth_error (s_heap st) (Z.to_nat a)) as [d|]; [|exact I]. cbn [obind bind].
  destruct (tab_get d k) as [r| | |]; cbn [of_res obind bind]; try exact I. reflexivity.
Qed.
Lemma w_members a l : forall st t, good st -> match new_members (OTab a) l st with
  | Done st' => dup_registers l (W st (OTab a :: t)) = Ok (W st' (OTab a :: t)) /\ good st' /\ s_ext st' = s_ext st
  | Unspec => True | _ => False end.
Proof.
  induction l as [|[n o] l IH]; intros st t HG; cbn [new_members dup_registers]. { auto. }
  unfold dup_register. cbn [fst snd]. change (vm_dup (W st (OTab a :: t))) with (W st (OTab a :: OTab a :: t)).
  pose proof (w_name st (OTab a :: OTab a :: t) n HG) as HN. destruct (new_name st (bs n)) as [[k st1]| | |]; cbn [obind]; try contradiction; [|exact I].
  destruct HN as (EN & G1 & Hk & Hh & Hx). rewrite EN. cbn [bind]. rewrite w_push.
  pose proof (w_put st1 (OTab a :: t) a k o G1 Hk) as HP. destruct (put_val st1 (OTab a) k o) as [st2| | |]; cbn [obind]; try contradiction; [|exact I].
  destruct HP as (EP & G2 & Hx2). rewrite EP. cbn [bind]. specialize (IH st2 t G2). destruct (new_members (OTab a) l st2); try contradiction; [|exact I].
  destruct IH as (E & G3 & Hx3). split; [exact E|]. split; [exact G3|]. congruence.
Qed.
Lemma dup_app l1 l2 : forall w : vm X, dup_registers (l1 ++ l2) w = (w1 <- dup_registers l1 w ;; dup_registers l2 w1).
Proof. induction l1 as [|e l1 IH]; intro w; cbn [app dup_registers]; [reflexivity|]. destruct (dup_register w e); cbn [bind]; auto. Qed.
Lemma w_table st t id : good st -> c_done (v2 <- make_swarm_table fid (W st t) id ;; vm_ret1 v2) (new_swarm fid st id).
Proof.
  intro HG. unfold make_swarm_table, new_swarm. cbv zeta. change (vm_pusht (W st t)) with (W (set_tabs st (s_heap st ++ [tab_new])) (OTab (zlen (s_heap st)) :: t)).
  set (st1 := set_tabs st (s_heap st ++ [tab_new])). set (a := zlen (s_heap st)).
  pose proof (w_members a (swarm_members fid id) st1 t HG) as H. unfold swarm_members in H at 2. rewrite dup_app in H.
  change (map _ swarm_methods) with (methods_of fid "buzzswarm_" swarm_methods) in H.
  match goal with |- context [dup_register ?w _] => idtac | _ => idtac end.
  replace (v1 <- dup_registers (methods_of fid "buzzswarm_" swarm_methods) (W st1 (OTab a :: t)) ;; dup_register v1 ("id"%string, OInt id))
    with (w1 <- dup_registers (methods_of fid "buzzswarm_" swarm_methods) (W st1 (OTab a :: t)) ;; dup_registers [("id"%string, OInt id)] w1).
  2: { destruct (dup_registers _ _); cbn [bind dup_registers]; auto. destruct (dup_register _ _); reflexivity. }
  destruct (new_members _ _ _) as [st2| | |]; try contradiction; [|exact I]. destruct H as (E & G & _). rewrite E. cbn [bind obind]. apply w_ret1. exact G.
Qed.
Lemma w_answer st t r : good st -> c_done (answer fid put_sw (W st t) r) (gives fid put_sw r st).
Proof.
  intro HG. unfold answer, gives. destruct r as [[x r]| | |]; cbn [bind]; try exact I.
  change (set_ext (W st t) (put_sw (v_ext (W st t)) x)) with (W (set_exts st (put_sw (s_ext st) x)) t).
  assert (G : good (set_exts st (put_sw (s_ext st) x))) by exact HG. destruct r as [| |z|id].
  - apply done_err. - apply w_ret0. exact G. - rewrite w_push. apply w_ret1. exact G. - apply w_table. exact G.
Qed.
Lemma w_load st t i x : 0 <= i -> nth_error args (Z.to_nat i) = Some x -> vm_lload (W st t) i = Ok (W st (x :: t)).
Proof. intros Hi Hx. rewrite (lload_ok (W st t) args L i x HL Hi Hx). reflexivity. Qed.
Lemma w_int st t i x K k : good st -> 0 <= i -> nth_error args (Z.to_nat i) = Some x ->
  (forall z, c_done (K (W st (OInt z :: t)) z) (k z)) -> c_done (int_arg (W st t) i K) (an_int x k).
Proof.
  intros HG Hi Hx H. unfold int_arg. rewrite (w_load st t i x Hi Hx). cbn [bind]. unfold type_assert. rewrite w_top. cbn [bind]. destruct x as [|z| | | | |]; try solve [apply done_err].
  change (otype (OInt z) =? T_INT) with true. cbv iota. unfold top_int. rewrite w_top. cbn [bind an_int]. apply H.
Qed.
Lemma w_id st t self K k : good st -> nth_error args 0 = Some self ->
  (forall id st' t', good st' -> s_ext st' = s_ext st -> c_done (K (W st' t') id) (k id st')) -> c_done (id_get (W st t) K) (swarm_id_of self st k).
Proof.
  intros HG Hx H. unfold id_get, swarm_id_of. rewrite (w_load st t 0 self ltac:(lia) Hx). cbn [bind].
  pose proof (w_name st (self :: t) "id" HG) as HN. unfold push_name in HN. destruct (new_name st (bs "id")) as [[n st1]| | |]; cbn [obind]; try contradiction; [|exact I].
  destruct HN as (EN & G1 & Hk & Hh & Hx1). destruct (sm_register sm_fuel (v_str (W st (self :: t))) (bs "id") true) as [[sm id]| | |]; cbn [bind] in EN |- *; try discriminate. injection EN as EN. rewrite EN.
  pose proof (w_get st1 t self n G1 Hk) as HT. destruct (get_val st1 self n) as [o| | |]; try exact I. rewrite HT. cbn [bind]. rewrite w_top. cbn [bind].
  destruct o; try exact I. apply H; auto.
Qed.
Lemma w_member st t i x K k : good st -> 0 <= i -> nth_error args (Z.to_nat i) = Some x ->
  (forall z st' t', good st' -> s_ext st' = s_ext st -> c_done (K (W st' t') (swarm_check (sw (s_ext st')) z)) (k z st')) -> c_done (swarm_arg sw (W st t) i K) (swarm_member x st k).
Proof.
  intros HG Hi Hx H. unfold swarm_arg, swarm_member. rewrite (w_load st t i x Hi Hx). cbn [bind]. rewrite w_top. cbn [bind]. destruct x as [| | | |a| |]; try exact I.
  pose proof (w_name st (OTab a :: t) "id" HG) as HN. destruct (new_name st (bs "id")) as [[n st1]| | |]; cbn [obind]; try contradiction; [|exact I].
  destruct HN as (EN & G1 & Hk & Hh & Hx1). rewrite EN. cbn [bind].
  pose proof (w_get st1 t (OTab a) n G1 Hk) as HT.
  assert (NF : forall e, get_val st1 (OTab a) n <> Fail e /\ get_val st1 (OTab a) n <> More).
  { intro e. unfold get_val. rewrite Hk. unfold table_at. destruct (0 <=? a); [|split; discriminate]. destruct (nth_error (s_heap st1) _) as [d|]; cbn [obind]; [|split; discriminate]. destruct (tab_get d n); cbn; split; discriminate. }
  destruct (get_val st1 (OTab a) n) as [o|e| |]; cbn [obind]; [|destruct (NF e); congruence|exact I|destruct (NF E_NONE); congruence]. rewrite HT. cbn [bind]. rewrite w_top. cbn [bind].
  destruct o; try solve [apply done_err]. apply (H z st1); auto.
Qed.
Lemma setop_check cond x z a b : setop_of cond x z (swarm_check x a) (swarm_check x b) = swarm_setop cond x z a b.
Proof. reflexivity. Qed.

Hypotheses (H1 : v_heap v = s_heap st0) (H2 : v_str v = s_str st0) (H3 : v_ext v = s_ext st0) (HK : keeping sm0 (v_str v)).
Lemma w_self : v = W st0 []. Proof. unfold W. rewrite <- H1, <- H2, <- H3. destruct v; cbn in *. unfold st3. cbn. rewrite HS. reflexivity. Qed.
Lemma good0 : good st0. Proof. split; [rewrite <- H2; exact HK|auto]. Qed.
Lemma num_is n K o : (zlen args - 1 = n -> c_done (K (W st0 [])) o) -> (zlen args - 1 <> n -> o = Fail E_LNUM) -> c_done (lnum_assert v n (K v)) o.
Proof.
  intros A B. rewrite <- w_self in A. unfold lnum_assert. rewrite (lnum_ok v args L HL). cbn [bind]. destruct (Z.eqb_spec (zlen args - 1) n); [auto|]. rewrite B by auto. apply done_err.
Qed.
Ltac args_of := destruct args as [|? [|? [|? [|? [|? ?]]]]]; try reflexivity; unfold zlen in *; cbn [length] in *; try lia.
Lemma c_create : c_done (vm_swarm_create fid sw put_sw v) (sem_create fid sw put_sw args st0).
Proof.
  apply (num_is _ (fun v => int_arg v 1 (fun v1 z => answer fid put_sw v1 (swarm_create (sw (v_ext v1)) z)))); unfold sem_create.
  - intro HN. assert (exists a x, args = [a; x]) as (a & x & EA). { args_of. eauto. } rewrite EA at 1. cbv beta. apply w_int; [apply good0|lia|rewrite EA; reflexivity|]. intro z. apply w_answer, good0.
  - intro HN. args_of.
Qed.
Lemma c_method0 op : c_done (lnum_assert v 0 (id_get v (fun v1 id => answer fid put_sw v1 (op (sw (v_ext v1)) id)))) (sem_method0 fid sw put_sw op args st0).
Proof.
  apply (num_is _ (fun v => id_get v (fun v1 id => answer fid put_sw v1 (op (sw (v_ext v1)) id)))); unfold sem_method0.
  - intro HN. assert (exists a, args = [a]) as (a & EA). { args_of. eauto. } rewrite EA at 1. cbv beta. apply w_id; [apply good0|rewrite EA; reflexivity|]. intros id st' t' G E. apply w_answer, G.
  - intro HN. args_of.
Qed.
Lemma c_others : c_done (vm_swarm_others fid sw put_sw v) (sem_others fid sw put_sw args st0).
Proof.
  apply (num_is _ (fun v => id_get v (fun v1 id => match sw_get (sw (v_ext v1)) id with None => Ok (err v1 E_SWARM) | Some _ => int_arg v1 1 (fun v2 z => answer fid put_sw v2 (swarm_others (sw (v_ext v2)) id z)) end))); unfold sem_others.
  - intro HN. assert (exists a x, args = [a; x]) as (a & x & EA). { args_of. eauto. } rewrite EA at 1. cbv beta. apply w_id; [apply good0|rewrite EA; reflexivity|]. intros id st' t' G E.
    change (v_ext (W st' t')) with (s_ext st'). destruct (sw_get _ _); [|apply done_err]. apply w_int; [exact G|lia|rewrite EA; reflexivity|]. intro y. apply w_answer, G.
  - intro HN. args_of.
Qed.
Lemma c_select : c_done (vm_swarm_select fid sw put_sw v) (sem_select fid sw put_sw args st0).
Proof.
  apply (num_is _ (fun v => id_get v (fun v1 id => int_arg v1 1 (fun v2 z => answer fid put_sw v2 (swarm_select (sw (v_ext v2)) id z))))); unfold sem_select.
  - intro HN. assert (exists a x, args = [a; x]) as (a & x & EA). { args_of. eauto. } rewrite EA at 1. cbv beta. apply w_id; [apply good0|rewrite EA; reflexivity|]. intros id st' t' G E.
    apply w_int; [exact G|lia|rewrite EA; reflexivity|]. intro y. apply w_answer, G.
  - intro HN. args_of.
Qed.
Lemma c_setop cond : c_done (vm_swarm_setop fid sw put_sw cond v) (sem_setop fid sw put_sw (swarm_setop cond) args st0).
Proof.
  apply (num_is _ (fun v => int_arg v 1 (fun v1 z => swarm_arg sw v1 2 (fun v2 a => swarm_arg sw v2 3 (fun v3 b => answer fid put_sw v3 (setop_of cond (sw (v_ext v3)) z a b)))))); unfold sem_setop.
  - intro HN. assert (exists a x y z, args = [a; x; y; z]) as (a & x & y & z & EA). { args_of. eauto. } rewrite EA at 1. cbv beta. apply w_int; [apply good0|lia|rewrite EA; reflexivity|]. intro i.
    apply w_member; [apply good0|lia|rewrite EA; reflexivity|]. intros b st1 t1 G1 E1. apply w_member; [exact G1|lia|rewrite EA; reflexivity|]. intros b2 st2 t2 G2 E2.
    change (v_ext (W st2 t2)) with (s_ext st2). rewrite E2 at 1 2. rewrite <- E2 at 1. rewrite E2. rewrite setop_check. apply w_answer, G2.
  - intro HN. args_of.
Qed.
End Ok.

Lemma swarm_means X fid sw put_sw : Forall2 (fun (e : string * (vm X -> res (vm X))) m => fst e = fst m /\ means (snd e) (snd m)) (swarm_list fid sw put_sw) (swarm_meanings fid sw put_sw).
Proof.
  repeat (constructor; [split; [reflexivity|]; cbn [snd]; intros v st args ra s rest L sm0 HR HE HS HL H1 H2 H3 HK|]); [..|constructor].
  - apply c_create; auto. - apply c_setop; auto. - apply c_setop; auto. - apply c_setop; auto. - apply c_others; auto.
  - apply c_method0; auto. - apply c_method0; auto. - apply c_method0; auto. - apply c_select; auto.
Qed.
Theorem lib_ok X c fid sw put_sw (flist : list (vm X -> res (vm X))) sm0 : lib_registered fid sw put_sw c flist -> c_functions flist (keeping sm0) (lib_cfun fid sw put_sw c).
Proof. intro HG. exact (found_ok X fid flist sm0 _ _ HG (Forall2_app (swarm_means X fid sw put_sw) (std_means X c))). Qed.
