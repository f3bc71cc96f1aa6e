From Verif Require Import Base ListLemmas Float Dict PDict PDictKeys Strman Obj ObjSpec ObjProofs Instr Vm VmSpec VmProofs VmFrames Strlib CFunSpec CFunProofs
  PropsVmFrames PropsVmData TableLib TableLibSpec.

Section P.
Context {X : Type}.
Notation vm := (vm X).
Implicit Types v w : vm.
Variable flist : list (vm -> res vm).
Variable powf : libm.
Variable code : Z -> Z.
Variable size : Z.
Variable fuel : nat.
Hypothesis HC : Forall c_function_ok flist.
Notation callback := (callback flist powf code size fuel).
Notation executed := (executed flist powf code size).
Notation runs := (runs flist powf code size).

(** ** The loop over the entries *)
Inductive each (R : vm -> obj -> obj -> vm -> Prop) : vm -> list (obj * obj) -> vm -> Prop :=
| each_nil v : each R v [] v
| each_cons v k x w l z : R v k x w -> each R w l z -> each R v ((k, x) :: l) z.

Definition todo (t : table) (i j : nat) : list (obj * obj) := skipn j (nth i t []) ++ concat (skipn (S i) t).

Lemma todo_next t i j k x : nth_error (nth i t []) j = Some (k, x) -> todo t i j = (k, x) :: todo t i (S j).
Proof.
  intro H. unfold todo. rewrite app_comm_cons. f_equal. revert H. generalize (nth i t []) as l. clear.
  induction j as [|j IH]; intros [|e l] H; cbn in *; try discriminate; [inversion H; reflexivity|]. apply IH. exact H.
Qed.
Lemma todo_bucket t i j : (i < length t)%nat -> nth_error (nth i t []) j = None -> todo t i j = todo t (S i) 0.
Proof.
  intros Hi H. apply nth_error_None in H. unfold todo. rewrite skipn_all2 by auto. cbn [app].
  destruct (Nat.lt_ge_cases (S i) (length t)).
  - assert (E : skipn (S i) t = nth (S i) t [] :: skipn (S (S i)) t).
    { clear - H0. revert t H0. generalize (S i) as n. induction n as [|n IH]; intros [|b t] H; cbn in H |- *; try lia; [reflexivity|]. apply IH. lia. }
    rewrite E. reflexivity.
  - rewrite nth_overflow by auto. rewrite (skipn_all2 t (n:=S i)), (skipn_all2 t (n:=S (S i))) by lia. reflexivity.
Qed.
Lemma todo_end t i j : (length t <= i)%nat -> todo t i j = [].
Proof. intro H. unfold todo. rewrite nth_overflow, skipn_nil, skipn_all2 by lia. reflexivity. Qed.
Lemma todo_start (t : table) : todo t 0 0 = pentries t.
Proof. destruct t; reflexivity. Qed.

Section Walk.
Variable a : Z.
Variable t : table.
Variable entry : vm -> obj -> obj -> res vm.
Variable Inv : vm -> Prop.
Variable R : vm -> obj -> obj -> vm -> Prop.
Hypothesis Hstop : forall v k x, v_state v <> S_READY -> entry v k x = Ok v.
Hypothesis Hstep : forall v k x v1, v_state v = S_READY -> Inv v -> table_of v a = Some t -> In (k, x) (pentries t) ->
  entry v k x = Ok v1 -> v_state v1 = S_READY -> R v k x v1 /\ Inv v1 /\ table_of v1 a = Some t.

Lemma walk_stopped n : forall i j v v', v_state v <> S_READY -> walk n a entry i j v = Ok v' -> v' = v.
Proof.
  induction n as [|n IH]; intros i j v v' HS H; cbn [walk] in H; [discriminate|].
  destruct (tab_at v a) as [u| | |]; cbn [bind] in H; try discriminate. destruct (Nat.ltb i (length u)); [|inversion H; auto].
  destruct (nth_error _ j) as [[k x]|].
  - rewrite Hstop in H by auto. cbn [bind] in H. eauto.
  - destruct (_ && _); [discriminate|]. eauto.
Qed.
Lemma walk_each n : forall i j v v', v_state v = S_READY -> Inv v -> table_of v a = Some t ->
  walk n a entry i j v = Ok v' -> v_state v' = S_READY ->
  each R v (todo t i j) v' /\ Inv v' /\ table_of v' a = Some t.
Proof.
  induction n as [|n IH]; intros i j v v' HS HI HT H HR; cbn [walk] in H; [discriminate|].
  unfold tab_at in H. destruct (0 <=? a); cbn [bind] in H; try discriminate. unfold table_of in HT. rewrite HT in H. cbn [bind] in H.
  destruct (Nat.ltb i (length t)) eqn:El.
  - apply Nat.ltb_lt in El. destruct (nth_error (nth i t []) j) as [[k x]|] eqn:En.
    + destruct (entry v k x) as [v1| | |] eqn:Ee; cbn [bind] in H; try discriminate.
      destruct (v_state v1) eqn:Es.
      2: { assert (Hin : In (k, x) (pentries t)). { apply in_concat. exists (nth i t []). split; [apply nth_In; auto|eapply nth_error_In; eauto]. }
        destruct (Hstep v k x v1 HS HI HT Hin Ee Es) as (A & B & C). destruct (IH i (S j) v1 v' Es B C H HR) as (D & E & F).
        split; [|auto]. rewrite (todo_next t i j k x En). econstructor; eauto. }
      all: apply walk_stopped in H; [|congruence]; subst; congruence.
    + destruct (_ && _); [discriminate|]. rewrite todo_bucket by auto. eauto.
  - apply Nat.ltb_ge in El. inversion H; subst. rewrite todo_end by auto. split; [constructor|auto].
Qed.
End Walk.

(** ** One callback *)
Definition frame_is (st : list obj) ra s rest (lsy : lsyms) L v : Prop :=
  v_stacks v = st :: (OInt ra :: s) :: rest /\ v_lsymts v = lsy :: L.

Lemma fold_push args : forall v, v_stacks v <> [] -> v_stacks (fold_left push args v) = (rev args ++ stack v) :: tl (v_stacks v).
Proof.
  induction args as [|o args IH]; intros v Hn; cbn [fold_left rev app]. { unfold stack. destruct (v_stacks v); [congruence|reflexivity]. }
  rewrite IH by discriminate. cbn. rewrite <- app_assoc. reflexivity.
Qed.
Lemma fold_push_rest args : forall v, v_lsymts (fold_left push args v) = v_lsymts v /\ v_state (fold_left push args v) = v_state v /\ same_world v (fold_left push args v).
Proof. induction args as [|o args IH]; intro v; cbn [fold_left]; [repeat split|]. destruct (IH (push v o)) as (A & B & C). auto. Qed.

Lemma callback_ok v ref act args v1 st ra s rest lsy L :
  v_state v = S_READY -> frame_is st ra s rest lsy L v -> callback v (OClos true ref act) args = Ok v1 -> v_state v1 = S_READY ->
  exists r, executed ref act v args r v1 /\ frame_is (r :: st) ra s rest lsy L v1.
Proof.
  intros HS [F1 F2] H HR. unfold TableLib.callback in H.
  set (v0 := push v (OClos true ref act)) in H.
  assert (HN : v_stacks v0 <> []) by discriminate.
  pose proof (fold_push args v0 HN) as E1. destruct (fold_push_rest args v0) as (E2 & E3 & E4 & E5 & E6 & E7).
  assert (E8 : stack v0 = OClos true ref act :: st) by (change (stack v0) with (OClos true ref act :: stack v); unfold stack; rewrite F1; reflexivity).
  assert (ES : stack (fold_left push args v0) = rev args ++ OClos true ref act :: st) by (unfold stack; rewrite E1, E8; reflexivity).
  destruct (C64_closure_call_balanced_partial X flist powf size code fuel _ v1 args ref act st HC (eq_trans E3 HS) ES H HR)
    as (r & v2 & A1 & A2 & A3 & A4 & A5 & A6 & A7 & A8 & A9).
  exists r. split.
  - exists v2. split; [exact A4|]. split; [|exact A9].
    split; [rewrite A5; exact E4|]. split; [rewrite A6; exact E5|]. split; [rewrite A7; exact E6|rewrite A8; exact E7].
  - split; [|rewrite A2, E2; exact F2]. rewrite A1, E1. cbn [tl].
    change (tl (v_stacks v0)) with (tl (v_stacks v)). rewrite F1. reflexivity.
Qed.

Lemma frame_pop r st ra s rest lsy L v : frame_is (r :: st) ra s rest lsy L v -> vm_pop v = dpop v /\ frame_is st ra s rest lsy L (dpop v).
Proof. intros [F1 F2]. unfold vm_pop, stack. rewrite F1. split; [reflexivity|]. split; [|exact F2]. unfold dpop, stack. cbn. rewrite F1. reflexivity. Qed.

(** ** The four functions *)
Lemma runs_each ref act (between : vm -> vm -> Prop) (R : vm -> obj -> obj -> vm -> Prop) :
  (forall v k x z, R v k x z -> exists r w, executed ref act v [k; x] r w /\ between w z) ->
  forall v es z, each R v es z -> exists rs, length rs = length es /\ runs ref act between v (entry_calls es rs) z.
Proof.
  intros HR v es z H. induction H as [v|v k x w l z Hr H (rs & E1 & E2)].
  - exists []. split; [reflexivity|]. constructor. repeat split.
  - destruct (HR _ _ _ _ Hr) as (r & w1 & A & B). exists (r :: rs). split; [cbn; lia|]. unfold entry_calls. cbn. econstructor; eauto.
Qed.
Lemma same_world_refl v : same_world v v. Proof. repeat split. Qed.
Lemma table_world v w a : same_world v w -> table_of w a = table_of v a.
Proof. intros (H & _). unfold table_of. rewrite H. reflexivity. Qed.

Lemma foreach_entry_ok ref act v k x v1 st ra s rest lsy L :
  v_state v = S_READY -> frame_is st ra s rest lsy L v -> foreach_entry flist powf code size fuel (OClos true ref act) v k x = Ok v1 -> v_state v1 = S_READY ->
  exists r w, executed ref act v [k; x] r w /\ same_world w v1 /\ frame_is st ra s rest lsy L v1.
Proof.
  intros HS HF H HR. unfold foreach_entry in H. rewrite HS in H. cbn [is_ready negb] in H.
  destruct (callback v _ _) as [w| | |] eqn:E; cbn [bind] in H; try discriminate.
  destruct (v_state w) eqn:Ew; cbn [is_ready] in H; inversion H; subst v1; try congruence.
  destruct (callback_ok _ _ _ _ _ _ _ _ _ _ _ HS HF E Ew) as (r & A & B). destruct (frame_pop _ _ _ _ _ _ _ _ B) as (C & D).
  exists r, w. split; [exact A|]. rewrite C. split; [repeat split|exact D].
Qed.

Lemma reduce_entry_ok ref act v k x v1 acc st ra s rest lsy L :
  v_state v = S_READY -> frame_is (acc :: st) ra s rest lsy L v -> reduce_entry flist powf code size fuel (OClos true ref act) v k x = Ok v1 -> v_state v1 = S_READY ->
  exists r, executed ref act v [k; x; acc] r v1 /\ frame_is (r :: st) ra s rest lsy L v1.
Proof.
  intros HS HF H HR. unfold reduce_entry in H. rewrite HS in H. cbn [is_ready negb] in H.
  destruct (frame_pop _ _ _ _ _ _ _ _ HF) as (C & D). rewrite C in H.
  assert (Ea : stack_at v 1 = Ok acc) by (unfold stack_at, stack; rewrite (proj1 HF); reflexivity). rewrite Ea in H. cbn [bind] in H.
  destruct (callback _ _ _) as [w| | |] eqn:E; cbn [bind] in H; try discriminate.
  destruct (v_state w) eqn:Ew; cbn [is_ready negb] in H; try (inversion H; subst; congruence).
  destruct (callback_ok _ _ _ _ _ _ _ _ _ _ _ (HS : v_state (dpop v) = _) D E Ew) as (r & (v2 & A1 & A2 & A3) & B).
  destruct (_ <=? _); inversion H; subst v1; [discriminate|]. exists r. split; [|exact B]. exists v2. auto.
Qed.

(** The table being built. *)
Lemma upd_other {A} (l : list A) n m x : m <> n -> nth_error (upd l n x) m = nth_error l m.
Proof. intro H. apply nth_error_upd_other. congruence. Qed.
Lemma upd_same {A} (l : list A) n x y : nth_error l n = Some y -> nth_error (upd l n x) n = Some x.
Proof. revert n. induction l; intros [|n]; cbn; intro H; try discriminate; auto. Qed.

Definition stored_as (op : option tab_op) (tb tb' : table) : Prop :=
  match op with None => tb' = tb | Some o => tab_history tb [o] = Ok tb' end.
Definition map_op (k r : obj) : tab_op := match r with ONil => TabDel k | _ => TabSet k r end.
Definition filter_op (k x r : obj) : option tab_op := if truthy r then Some (TabSet k x) else None.

Lemma put_world v b (tb' : table) : same_world_but b v (tab_put v b tb').
Proof. split; [|repeat split]. intros i Hi. cbn. apply upd_other. auto. Qed.

Lemma map_entry_ok a b ref act v k x v1 st ra s rest lsy L tb :
  v_state v = S_READY -> frame_is st ra s rest lsy L v -> 0 <= b -> keeps flist powf code size ref act b -> table_of v b = Some tb ->
  map_entry flist powf code size fuel a b (OClos true ref act) v k x = Ok v1 -> v_state v1 = S_READY ->
  exists r w tb', executed ref act v [k; x] r w /\ same_world_but b w v1 /\ frame_is st ra s rest lsy L v1 /\
    table_of v1 b = Some tb' /\ stored_as (Some (map_op k r)) tb tb'.
Proof.
  intros HS HF Hb HK HT H HR. unfold map_entry in H. rewrite HS in H. cbn [is_ready negb] in H.
  destruct (callback v _ _) as [w| | |] eqn:E; cbn [bind] in H; try discriminate.
  destruct (v_state w) eqn:Ew; cbn [is_ready negb] in H; try (inversion H; subst; congruence).
  destruct (callback_ok _ _ _ _ _ _ _ _ _ _ _ HS HF E Ew) as (r & A & B).
  destruct (_ <=? _); [inversion H; subst; discriminate|].
  assert (Er : stack_at w 1 = Ok r) by (unfold stack_at, stack; rewrite (proj1 B); reflexivity). rewrite Er in H. cbn [bind] in H.
  unfold still_there in H. destruct (tab_at w a) as [ta| | |]; cbn [bind] in H; try discriminate.
  destruct (tab_get ta k) as [[y|]| | |]; cbn [bind] in H; try discriminate.
  pose proof (HK _ _ _ _ _ A HT) as HT'. unfold put_result, tab_at in H. replace (0 <=? b) with true in H by lia.
  unfold table_of in HT'. rewrite HT' in H. cbn [bind] in H.
  destruct (match r with ONil => tab_remove tb k | _ => tab_set tb k r end) as [tb'| | |] eqn:Et; cbn [bind] in H; try discriminate.
  inversion H; subst v1.
  assert (B' : frame_is (r :: st) ra s rest lsy L (tab_put w b tb')) by exact B.
  destruct (frame_pop _ _ _ _ _ _ _ _ B') as (C & D). rewrite C.
  exists r, w, tb'. split; [exact A|]. split; [|split; [exact D|split]].
  - destruct (put_world w b tb') as (P1 & P2). split; [exact P1|]. exact P2.
  - unfold table_of. cbn. eapply upd_same; eauto.
  - unfold stored_as, map_op. destruct r; cbn [tab_history]; rewrite Et; reflexivity.
Qed.

Lemma filter_entry_ok a b ref act v k x v1 st ra s rest lsy L tb :
  v_state v = S_READY -> frame_is st ra s rest lsy L v -> 0 <= b -> keeps flist powf code size ref act b -> table_of v b = Some tb ->
  filter_entry flist powf code size fuel a b (OClos true ref act) v k x = Ok v1 -> v_state v1 = S_READY ->
  exists r w tb', executed ref act v [k; x] r w /\ same_world_but b w v1 /\ frame_is st ra s rest lsy L v1 /\
    table_of v1 b = Some tb' /\ stored_as (filter_op k x r) tb tb'.
Proof.
  intros HS HF Hb HK HT H HR. unfold filter_entry in H. rewrite HS in H. cbn [is_ready negb] in H.
  destruct (callback v _ _) as [w| | |] eqn:E; cbn [bind] in H; try discriminate.
  destruct (v_state w) eqn:Ew; cbn [is_ready negb] in H; try (inversion H; subst; congruence).
  destruct (callback_ok _ _ _ _ _ _ _ _ _ _ _ HS HF E Ew) as (r & A & B).
  destruct (_ <=? _); [inversion H; subst; discriminate|].
  assert (Er : stack_at w 1 = Ok r) by (unfold stack_at, stack; rewrite (proj1 B); reflexivity). rewrite Er in H. cbn [bind] in H.
  pose proof (HK _ _ _ _ _ A HT) as HT'. destruct (truthy r) eqn:ETr.
  - unfold still_there in H. destruct (tab_at w a) as [ta| | |]; cbn [bind] in H; try discriminate.
    destruct (tab_get ta k) as [[y|]| | |]; cbn [bind] in H; try discriminate.
    unfold tab_at in H. replace (0 <=? b) with true in H by lia.
    unfold table_of in HT'. rewrite HT' in H. cbn [bind] in H.
    destruct (tab_set tb k x) as [tb'| | |] eqn:Et; cbn [bind] in H; try discriminate.
    inversion H; subst v1.
    assert (B' : frame_is (r :: st) ra s rest lsy L (tab_put w b tb')) by exact B.
    destruct (frame_pop _ _ _ _ _ _ _ _ B') as (C & D). rewrite C.
    exists r, w, tb'. split; [exact A|]. split; [|split; [exact D|split]].
    + destruct (put_world w b tb') as (P1 & P2). split; [exact P1|]. exact P2.
    + unfold table_of. cbn. eapply upd_same; eauto.
    + unfold stored_as, filter_op. rewrite ETr. cbn [tab_history]. rewrite Et. reflexivity.
  - cbn [bind] in H. inversion H; subst v1. destruct (frame_pop _ _ _ _ _ _ _ _ B) as (C & D). rewrite C.
    exists r, w, tb. split; [exact A|]. split; [|split; [exact D|split; [exact HT'|unfold stored_as, filter_op; rewrite ETr; reflexivity]]]. split; [auto|]. repeat split.
Qed.
End P.
