(** What histories of the outgoing queue send. *)
From Verif Require Import Base ListLemmas Dict DictSpec PDict DictProofs PDictKeys Strman Obj ObjSpec ObjProofs OutMsg OutMsgSpec OutMsgProofs
  Swarm SwarmSpec MembersProofs.

Lemma of_prio_app n a b : of_prio n (a ++ b) = of_prio n a ++ of_prio n b.
Proof. apply filter_app. Qed.
Lemma of_prio_map {A} (f : A -> omsg) k n l : (forall x, prio (f x) = k) -> of_prio n (map f l) = if k =? n then map f l else [].
Proof.
  intro H. induction l as [|x l IH]; cbn; [destruct (_ =? _); auto|]. unfold of_prio in IH. rewrite H, IH. destruct (k =? n); auto.
Qed.
Definition queue_n (q : oq) (n : Z) : list omsg :=
  if n =? 0 then map (fun e => MBroadcast (fst e) (snd e)) (o_bc q)
  else if n =? 1 then map MList (o_list q)
  else if n =? 2 then map put_msg (o_put q)
  else if n =? 3 then map query_msg (o_query q)
  else if n =? 4 then map MJoin (o_join q)
  else if n =? 5 then map MLeave (o_leave q) else [].
Lemma of_prio_pending q n : of_prio n (pending q) = queue_n q n.
Proof.
  unfold pending. rewrite !of_prio_app.
  rewrite (of_prio_map (fun e => MBroadcast (fst e) (snd e)) 0), (of_prio_map MList 1), (of_prio_map put_msg 2), (of_prio_map query_msg 3),
    (of_prio_map MJoin 4), (of_prio_map MLeave 5) by reflexivity.
  unfold queue_n. rewrite !(Z.eqb_sym n).
  destruct (0 =? n) eqn:E0; [assert (n = 0) by lia; subst; cbn [Z.eqb]; rewrite ?app_nil_r; auto|].
  destruct (1 =? n) eqn:E1; [assert (n = 1) by lia; subst; cbn; rewrite ?app_nil_r; auto|].
  destruct (2 =? n) eqn:E2; [assert (n = 2) by lia; subst; cbn; rewrite ?app_nil_r; auto|].
  destruct (3 =? n) eqn:E3; [assert (n = 3) by lia; subst; cbn; rewrite ?app_nil_r; auto|].
  destruct (4 =? n) eqn:E4; [assert (n = 4) by lia; subst; cbn; rewrite ?app_nil_r; auto|].
  destruct (5 =? n) eqn:E5; [assert (n = 5) by lia; subst; cbn; rewrite ?app_nil_r; auto|].
  reflexivity.
Qed.

Section Run.
Variables (fl : bool) (sidof : str -> Z) (u : Z).
Hypothesis Hu : 0 <= u < 65536.
Notation P := (vkey_class fl sidof).
Notation oinv := (oinv fl sidof u).
Notation ok := (oop_ok fl sidof u).

Lemma drains_pending q : oinv q -> drains q (pending q).
Proof.
  intro I. unfold drains.
  assert (HG : forall n q, oinv q -> length (pending q) = n -> exists q' outs, oq_run q (repeat OSend n) = Ok (q', outs) /\ concat outs = pending q /\
      Forall (fun s => length s = 1%nat) outs /\ pending q' = [] /\ oinv q').
  { clear q I. induction n as [|n IH]; intros q I Hn; cbn [repeat oq_run].
    - exists q, []. destruct (pending q); [|discriminate]. splits; auto.
    - destruct (next_ok fl sidof u q I) as (q1 & E & I1 & HM). cbn [oq_step]. rewrite E. cbn [bind].
      destruct (pending q) as [|m t]; [discriminate|]. destruct HM as [-> Et]. assert (Hn' : length t = n) by (cbn in Hn; lia).
      destruct (IH q1 I1) as (q' & outs & -> & HC & HF & HP & I'); [congruence|]. cbn [bind]. do 2 eexists. split; [reflexivity|].
      splits; auto. cbn. rewrite HC, Et. auto. }
  destruct (HG _ q I eq_refl) as (q' & outs & E & HC & HF & HP & I'). exists q', outs. splits; auto.
  destruct (next_ok fl sidof u q' I') as (q2 & _ & _ & HM). rewrite HP in HM. tauto.
Qed.
Lemma drains_unique q a b : drains q a -> drains q b -> a = b.
Proof.
  intros (q1 & o1 & E1 & C1 & F1 & N1) (q2 & o2 & E2 & C2 & F2 & N2).
  assert (HL : forall a outs, concat outs = a -> Forall (fun s : list omsg => length s = 1%nat) outs -> length outs = length a).
  { clear. intros a outs <-. induction 1 as [|s outs Hs _ IH]; auto. cbn. rewrite app_length, Hs, IH. auto. }
  assert (HG : forall n m (x : nat) q a b q1 q2 o1 o2, n = (m + x)%nat -> oq_run q (repeat OSend n) = Ok (q1, o1) -> oq_run q (repeat OSend m) = Ok (q2, o2) ->
      concat o1 = a -> concat o2 = b -> Forall (fun s => length s = 1%nat) o1 -> oq_first q2 = None -> length a = n -> n = m).
  { clear. induction n as [|n IH]; intros m x q a b q1 q2 o1 o2 En E1 E2 C1 C2 F1 N2 La; [lia|].
    destruct m as [|m].
    - cbn [repeat oq_run] in E2. inversion E2; subst q2 o2. cbn [repeat oq_run oq_step] in E1.
      rewrite N2 in E1. apply bind_ok in E1 as ([q' s] & E1 & E1'). apply bind_ok in E1 as (q'' & _ & E1). inversion E1; subst.
      apply bind_ok in E1' as ([q3 s3] & _ & E3). inversion E3; subst. inversion F1; subst. discriminate.
    - f_equal. cbn [repeat oq_run] in E1, E2. destruct (oq_step q OSend) as [[q' s]| | |] eqn:Es; try discriminate. cbn [bind] in *.
      apply bind_ok in E1 as ([q3 s3] & E1 & E3). apply bind_ok in E2 as ([q4 s4] & E2 & E4). inversion E3; inversion E4; subst.
      inversion F1; subst. eapply (IH m x q' (concat s3) (concat s4)); eauto; try lia. cbn in La. rewrite app_length, H1 in La. lia. }
  assert (length a = length b).
  { destruct (le_lt_dec (length a) (length b)) as [Hl|Hl].
    - symmetry. eapply (HG _ _ (length b - length a)%nat q b a q2 q1 o2 o1); eauto. lia.
    - eapply (HG _ _ (length a - length b)%nat q a b q1 q2 o1 o2); eauto. lia. }
  rewrite H in E1. rewrite E1 in E2. inversion E2; subst. auto.
Qed.

(** ** Order inside a type *)
Lemma to_sub l id : subseq (to_swarm_queue l id) (l ++ [id]).
Proof.
  assert (H : to_swarm_queue l id = if existsb (Z.eqb id) l then l else l ++ [id]) by (destruct l; reflexivity).
  rewrite H. destruct (existsb _ l); [|apply subseq_refl]. rewrite <- (app_nil_r l) at 1. apply subseq_app; [apply subseq_refl|constructor; constructor].
Qed.
Lemma sub_weaken {A} (a b c : list A) : subseq a b -> subseq a (b ++ c).
Proof. intro H. rewrite <- (app_nil_r a). apply subseq_app; auto. apply subseq_nil. Qed.

Lemma step_send q q' s : oinv q -> oq_step q OSend = Ok (q', s) -> pending q = s ++ pending q' /\ (length s <= 1)%nat.
Proof.
  intros I E. cbn [oq_step] in E. destruct (next_ok fl sidof u q I) as (q1 & E1 & I1 & HM). rewrite E1 in E. cbn [bind] in E.
  destruct (pending q) as [|m t] eqn:Ep.
  - destruct HM as [HF ->]. rewrite HF in E. inversion E; subst. rewrite Ep. auto.
  - destruct HM as [HF Et]. rewrite HF in E. inversion E; subst. cbn. auto.
Qed.

Lemma asked_sub q o q' s n : oinv q -> ok o -> oq_step q o = Ok (q', s) -> n <> 1 ->
  subseq (of_prio n (s ++ pending q')) (of_prio n (pending q) ++ of_prio n (asked o)).
Proof.
  intros I Ho E Hn. destruct o as [t v|ids|id|id|p id k d|]; try (
   cbn [oq_step] in E).
  - inversion E; subst. cbn [app]. rewrite !of_prio_pending. unfold queue_n. cbn [append_broadcast set_bc o_bc o_list o_put o_query o_join o_leave asked].
    destruct (n =? 0) eqn:E0; [|repeat (destruct (_ =? _); [apply sub_weaken, subseq_refl|]); apply subseq_nil].
    rewrite map_app. assert (n = 0) by lia. subst. apply subseq_refl.
  - inversion E; subst. cbn [app]. rewrite !of_prio_pending. rewrite append_list_eq with (u := u) by auto.
    unfold queue_n. cbn [set_swarm o_bc o_list o_put o_query o_join o_leave asked].
    destruct (n =? 0); [apply sub_weaken, subseq_refl|]. destruct (n =? 1) eqn:E1; [lia|].
    destruct (n =? 2); [apply sub_weaken, subseq_refl|]. destruct (n =? 3); [apply sub_weaken, subseq_refl|].
    destruct (n =? 4); [apply subseq_nil|]. destruct (n =? 5); apply subseq_nil.
  - destruct I as [V S]. destruct (joinleave_ok u Hu q true id S Ho) as (l & j & v & Ej & S' & HC). rewrite Ej in E. cbn [bind] in E. inversion E; subst.
    cbn [app]. rewrite !of_prio_pending. unfold queue_n. cbn [set_swarm o_bc o_list o_put o_query o_join o_leave asked of_prio filter prio].
    destruct (n =? 0); [apply sub_weaken, subseq_refl|]. destruct (n =? 1) eqn:E1; [lia|].
    destruct (n =? 2); [apply sub_weaken, subseq_refl|]. destruct (n =? 3); [apply sub_weaken, subseq_refl|]. rewrite (Z.eqb_sym 4 n).
    destruct HC as [(_ & _ & -> & ->)|(l0 & l1 & _ & _ & -> & -> & _)].
    + destruct (n =? 4); [change [MJoin id] with (map MJoin [id]); rewrite <- map_app; apply subseq_map, to_sub|].
      destruct (n =? 5); [apply sub_weaken, subseq_map, from_sub|apply subseq_nil].
    + destruct (n =? 4); [apply subseq_nil|]. destruct (n =? 5); apply subseq_nil.
  - destruct I as [V S]. destruct (joinleave_ok u Hu q false id S Ho) as (l & j & v & Ej & S' & HC). rewrite Ej in E. cbn [bind] in E. inversion E; subst.
    cbn [app]. rewrite !of_prio_pending. unfold queue_n. cbn [set_swarm o_bc o_list o_put o_query o_join o_leave asked of_prio filter prio].
    destruct (n =? 0); [apply sub_weaken, subseq_refl|]. destruct (n =? 1) eqn:E1; [lia|].
    destruct (n =? 2); [apply sub_weaken, subseq_refl|]. destruct (n =? 3); [apply sub_weaken, subseq_refl|]. rewrite (Z.eqb_sym 5 n).
    destruct HC as [(_ & _ & -> & ->)|(l0 & l1 & _ & _ & -> & -> & _)].
    + destruct (n =? 4); [apply sub_weaken, subseq_map, from_sub|].
      destruct (n =? 5); [change [MLeave id] with (map MLeave [id]); rewrite <- map_app; apply subseq_map, to_sub|apply subseq_nil].
    + destruct (n =? 4); [apply subseq_nil|]. destruct (n =? 5); apply subseq_nil.
  - destruct I as [V S]. destruct (append_vstig_ok fl sidof q p id k d V Ho) as (q2 & Ev & V' & E1 & E2 & E3 & E4 & HP & HQ).
    rewrite Ev in E. cbn [bind] in E. assert (q2 = q') by congruence. assert (s = []) by congruence. subst q2 s. clear E Ev.
    cbn [app]. rewrite !of_prio_pending. unfold queue_n. rewrite E1, E2, E3, E4, HP, HQ. clear HP HQ E1 E2 E3 E4.
    destruct (n =? 0); [apply sub_weaken, subseq_refl|]. destruct (n =? 1) eqn:E1; [lia|].
    set (old := find (sk id k) (allv q)). set (keep := match old with Some _ => _ | None => _ end).
    assert (HR : forall l, subseq (match old with Some o => remove_addr l (v_addr o) | None => l end) l).
    { intro l. destruct old; [apply remove_addr_sub|apply subseq_refl]. }
    destruct (n =? 2) eqn:E2.
    + destruct keep; [apply sub_weaken, subseq_refl|]. destruct p.
      * rewrite map_app. apply subseq_app; [apply subseq_map, HR|]. assert (n = 2) by lia. subst n. apply subseq_refl.
      * apply sub_weaken, subseq_map, HR.
    + destruct (n =? 3) eqn:E3.
      * destruct keep; [apply sub_weaken, subseq_refl|]. destruct p.
        -- apply sub_weaken, subseq_map, HR.
        -- rewrite map_app. apply subseq_app; [apply subseq_map, HR|]. assert (n = 3) by lia. subst n. apply subseq_refl.
      * destruct (n =? 4); [apply sub_weaken, subseq_refl|]. destruct (n =? 5); [apply sub_weaken, subseq_refl|apply subseq_nil].
  - destruct (step_send q q' s I E) as [-> _]. apply sub_weaken, subseq_refl.
Qed.
Lemma asked_eq0 q o q' s : oinv q -> ok o -> oq_step q o = Ok (q', s) ->
  of_prio 0 (s ++ pending q') = of_prio 0 (pending q) ++ of_prio 0 (asked o).
Proof.
  intros I Ho E. destruct o as [t v|ids|id|id|p id k d|].
  6: { destruct (step_send q q' s I E) as [-> _]. cbn [asked of_prio filter]. rewrite app_nil_r. auto. }
  all: cbn [oq_step] in E.
  - inversion E; subst. cbn [app]. rewrite !of_prio_pending. unfold queue_n. cbn [append_broadcast set_bc o_bc asked Z.eqb].
    rewrite map_app. reflexivity.
  - inversion E; subst. cbn [app]. rewrite !of_prio_pending. unfold queue_n. cbn. rewrite app_nil_r. auto.
  - destruct I as [V S]. destruct (joinleave_ok u Hu q true id S Ho) as (l & j & v & Ej & S' & HC). rewrite Ej in E. cbn [bind] in E. inversion E; subst.
    cbn [app]. rewrite !of_prio_pending. unfold queue_n. cbn. rewrite app_nil_r. auto.
  - destruct I as [V S]. destruct (joinleave_ok u Hu q false id S Ho) as (l & j & v & Ej & S' & HC). rewrite Ej in E. cbn [bind] in E. inversion E; subst.
    cbn [app]. rewrite !of_prio_pending. unfold queue_n. cbn. rewrite app_nil_r. auto.
  - destruct I as [V S]. destruct (append_vstig_ok fl sidof q p id k d V Ho) as (q2 & Ev & V' & E1 & _).
    rewrite Ev in E. cbn [bind] in E. assert (q2 = q') by congruence. assert (s = []) by congruence. subst q2 s.
    cbn [app]. rewrite !of_prio_pending. unfold queue_n. cbn [Z.eqb]. rewrite E1. destruct p; cbn; rewrite app_nil_r; auto.
Qed.
Lemma concat_snoc {A} (l : list (list A)) x : concat (l ++ [x]) = concat l ++ x.
Proof. rewrite concat_app. cbn. rewrite app_nil_r. auto. Qed.

Lemma run_asked ops q outs : Forall ok ops -> oq_run oq_new ops = Ok (q, outs) ->
  of_prio 0 (concat outs ++ pending q) = of_prio 0 (all_asked ops) /\
  (forall n, n <> 1 -> subseq (of_prio n (concat outs ++ pending q)) (of_prio n (all_asked ops))).
Proof.
  intros HF HE.
  apply (run_ind fl sidof u Hu (fun q ops outs => of_prio 0 (concat outs ++ pending q) = of_prio 0 (all_asked ops) /\
  (forall n, n <> 1 -> subseq (of_prio n (concat outs ++ pending q)) (of_prio n (all_asked ops)))) oq_new); auto.
  - clear - Hu. intros q1 ops outs o q2 s [H0 HS] I1 Ho E I2. rewrite concat_snoc, <- app_assoc.
    unfold all_asked in *. rewrite flat_map_app. cbn [flat_map]. rewrite app_nil_r. split.
    + rewrite of_prio_app, (asked_eq0 _ _ _ _ I1 Ho E), app_assoc, <- of_prio_app, H0, of_prio_app. auto.
    + intros n Hn. rewrite (of_prio_app n (concat outs)), (of_prio_app n (flat_map asked ops)).
      apply (subseq_trans (of_prio n (concat outs) ++ (of_prio n (pending q1) ++ of_prio n (asked o)))).
      * rewrite app_assoc, <- of_prio_app. apply subseq_app; auto. apply subseq_refl.
      * apply subseq_app; [apply subseq_refl|eapply asked_sub; eauto].
  - split; auto. intros n Hn. apply subseq_refl.
  - apply oinv_new.
Qed.

(** ** One message per key *)
Definition tomsg (m : vmsg) : omsg := if v_put m then put_msg m else query_msg m.
Lemma about_tomsg id k m : about id k (tomsg m) = sk id k m.
Proof. unfold tomsg, put_msg, query_msg, sk. destruct (v_put m); reflexivity. Qed.
Lemma filter_about_pending q id k : vinv fl sidof q -> filter (about id k) (pending q) = map tomsg (filter (sk id k) (allv q)).
Proof.
  intro V. unfold pending.
  assert (HN : forall {A} (f : A -> omsg) l, (forall x, about id k (f x) = false) -> filter (about id k) (map f l) = []).
  { intros A f l H. induction l; cbn; auto. rewrite H. auto. }
  assert (HM : forall f l, (forall x, In x l -> f x = tomsg x) -> filter (about id k) (map f l) = map tomsg (filter (sk id k) l)).
  { intros f l H. induction l as [|x l IH]; auto. cbn [map filter]. rewrite (H x) by (left; auto). rewrite about_tomsg, IH by (intros; apply H; right; auto).
    destruct (sk id k x); auto. }
  rewrite !filter_app, (HN _ (fun e => MBroadcast (fst e) (snd e))), (HN _ MList), (HN _ MJoin), (HN _ MLeave) by reflexivity. cbn [app]. rewrite !app_nil_r. unfold allv. rewrite filter_app, map_app. f_equal.
  - apply HM. intros x Hx. unfold tomsg. pose proof (vi_put _ _ q V) as VP. rewrite Forall_forall in VP. rewrite VP; auto.
  - apply HM. intros x Hx. unfold tomsg. pose proof (vi_query _ _ q V) as VP. rewrite Forall_forall in VP. rewrite VP; auto.
Qed.
Lemma filter_unique {A} (f : A -> bool) l : NoDup l -> (forall x y, In x l -> In y l -> f x = true -> f y = true -> x = y) ->
  filter f l = match find f l with Some x => [x] | None => [] end.
Proof.
  induction l as [|x l IH]; intros HN H; auto. inversion HN; subst. cbn. destruct (f x) eqn:E.
  - f_equal. destruct (filter f l) as [|y t] eqn:Ef; auto. exfalso.
    assert (Hy : In y (filter f l)) by (rewrite Ef; left; auto). apply filter_In in Hy as [Hy Hfy].
    assert (x = y) by (apply H; auto; [left; auto|right; auto]). subst. auto.
  - apply IH; auto. intros; apply H; auto; right; auto.
Qed.
Lemma sk_unique q id k x y : vinv fl sidof q -> P k = true -> In x (allv q) -> In y (allv q) -> sk id k x = true -> sk id k y = true -> x = y.
Proof.
  intros V Hk Hx Hy H1 H2. unfold sk in *. apply andb_true_iff in H1 as [H1 K1], H2 as [H2 K2].
  pose proof (vi_ix _ _ q V) as I. pose proof (vi_d _ _ q V) as D.
  apply (index_unique fl sidof (o_vstig q) (allv q)); auto; [lia|].
  pose proof (ix_key _ _ _ _ I x Hx) as Px. pose proof (ix_key _ _ _ _ I y Hy) as Py.
  apply (gc_trans _ _ _ (good_vclass fl sidof) _ k); auto. rewrite (same_sym fl sidof); auto.
Qed.
Lemma nodup_allv q : vinv fl sidof q -> NoDup (allv q).
Proof. intro V. eapply NoDup_map_inv. apply (ix_nd _ _ _ _ (vi_ix _ _ q V)). Qed.
Lemma pending_one q id k : vinv fl sidof q -> P k = true ->
  filter (about id k) (pending q) = match find (sk id k) (allv q) with Some m => [tomsg m] | None => [] end.
Proof.
  intros V Hk. rewrite filter_about_pending by auto. rewrite filter_unique.
  - destruct (find _ _); auto.
  - apply nodup_allv; auto.
  - intros; eapply sk_unique; eauto.
Qed.
Lemma find_iff q id k m : vinv fl sidof q -> P k = true -> (find (sk id k) (allv q) = Some m <-> In m (allv q) /\ sk id k m = true).
Proof.
  intros V Hk. split; [apply find_some|]. intros [Hm Hs]. destruct (find (sk id k) (allv q)) as [m'|] eqn:E.
  - apply find_some in E as [Hm' Hs']. f_equal. eapply sk_unique; eauto.
  - eapply find_none in E; eauto. congruence.
Qed.
Lemma find_niff q id k : vinv fl sidof q -> P k = true -> (find (sk id k) (allv q) = None <-> forall m, In m (allv q) -> sk id k m = false).
Proof.
  intros V Hk. split; [apply find_none|]. intro H. destruct (find (sk id k) (allv q)) as [m'|] eqn:E; auto.
  apply find_some in E as [Hm' Hs']. rewrite H in Hs'; auto. discriminate.
Qed.
Definition upd_newest (id : Z) (k : obj) (o : oop) (s : list omsg) (cur : option omsg) : option omsg :=
  match o with
  | OSend => if existsb (about id k) s then None else cur
  | _ =>
      match filter (about id k) (asked o), cur with
      | m :: _, Some m0 => if ts_of m0 <? ts_of m then Some m else cur
      | m :: _, None => Some m
      | [], _ => cur
      end
  end.
Lemma newest_snoc id k ops : forall outs o s cur, length ops = length outs ->
  newest id k (ops ++ [o]) (outs ++ [s]) cur = upd_newest id k o s (newest id k ops outs cur).
Proof.
  induction ops as [|o0 ops IH]; intros [|s0 outs] o s cur HL; try discriminate; cbn [app newest]; auto.
Qed.
Definition cur_of (q : oq) (id : Z) (k : obj) : option omsg := option_map tomsg (find (sk id k) (allv q)).
Lemma cur_same q q' id k : allv q' = allv q -> cur_of q' id k = cur_of q id k.
Proof. unfold cur_of. intros ->. auto. Qed.
Lemma ts_tomsg m : ts_of (tomsg m) = ve_ts (v_data m).
Proof. unfold tomsg. destruct (v_put m); auto. Qed.
Lemma newest_step q o q' s id k : oinv q -> ok o -> P k = true -> oq_step q o = Ok (q', s) -> oinv q' ->
  cur_of q' id k = upd_newest id k o s (cur_of q id k).
Proof.
  intros I Ho Hk E I'. destruct o as [t v|ids|i|i|p i key d|].
  - cbn [oq_step] in E. inversion E; subst. cbn. apply cur_same. auto.
  - cbn [oq_step] in E. inversion E; subst. cbn [upd_newest asked filter about]. apply cur_same. auto.
  - destruct I as [V S]. cbn [oq_step] in E. destruct (joinleave_ok u Hu q true i S Ho) as (l & j & v & Ej & S' & HC). rewrite Ej in E. cbn [bind] in E. inversion E; subst.
    cbn. apply cur_same. auto.
  - destruct I as [V S]. cbn [oq_step] in E. destruct (joinleave_ok u Hu q false i S Ho) as (l & j & v & Ej & S' & HC). rewrite Ej in E. cbn [bind] in E. inversion E; subst.
    cbn. apply cur_same. auto.
  - destruct I as [V S]. destruct I' as [V' S']. cbn [oq_step] in E.
    destruct (append_vstig_ok fl sidof q p i key d V Ho) as (q2 & Ev & _ & _ & _ & _ & _ & HP & HQ).
    rewrite Ev in E. cbn [bind] in E. assert (q2 = q') by congruence. assert (s = []) by congruence. subst q2 s. clear E Ev.
    cbn [oop_ok] in Ho. set (m := new_msg q p i key d) in *. set (old := find (sk i key) (allv q)) in *.
    assert (Hasked : asked (OVstig p i key d) = [tomsg m]) by (unfold tomsg; destruct p; reflexivity).
    unfold upd_newest. rewrite Hasked. cbn [filter]. rewrite about_tomsg.
    destruct (match old with Some o => ve_ts (v_data o) >=? ve_ts d | None => false end) eqn:Ekeep; try (rewrite Ekeep in HP, HQ).
    + rewrite (cur_same q q' id k) by (unfold allv; congruence). destruct (sk id k m) eqn:Em; auto.
      destruct old as [o|] eqn:Eo; [|discriminate]. unfold old in Eo.
      assert (Hc : find (sk id k) (allv q) = Some o).
      { apply find_iff in Eo as [Hin Hs]; auto. apply find_iff; auto. split; auto. unfold sk in *. cbn [m new_msg v_id v_key] in Em.
        apply andb_true_iff in Em as [M1 M2], Hs as [S1 S2]. apply andb_true_iff. split; [lia|].
        apply (gc_trans _ _ _ (good_vclass fl sidof) _ key); auto. apply (ix_key _ _ _ _ (vi_ix _ _ q V)); auto. }
      unfold cur_of. rewrite Hc. cbn [option_map]. rewrite !ts_tomsg. cbn [m new_msg v_data].
      destruct (_ <? _) eqn:El; auto. lia.
    + assert (Hall : forall x, In x (allv q') <-> x = m \/ (In x (allv q) /\ old <> Some x)).
      { intro x.
        assert (HR : forall l, subseq l (allv q) -> In x (match old with Some o => remove_addr l (v_addr o) | None => l end) <-> In x l /\ old <> Some x).
        { intros l Hl. destruct old as [o|] eqn:Eo.
          - rewrite remove_addr_in.
            2:{ eapply subseq_nodup; [apply subseq_map; eauto|]. apply (ix_nd _ _ _ _ (vi_ix _ _ q V)). }
            split; intros [A B]; split; auto; [congruence|]. intro Hc. apply B. f_equal.
            apply (addr_inj (allv q)); auto; [apply (ix_nd _ _ _ _ (vi_ix _ _ q V))| |eapply subseq_in; eauto]. unfold old in Eo. apply find_some in Eo. tauto.
          - split; [intro; split; auto; discriminate|tauto]. }
        assert (R1 := HR (o_put q)). assert (R2 := HR (o_query q)).
        assert (Hs1 : subseq (o_put q) (allv q)) by (apply sub_weaken, subseq_refl).
        assert (Hs2 : subseq (o_query q) (allv q)) by (unfold allv; rewrite <- (app_nil_l (o_query q)) at 1; apply subseq_app; [apply subseq_nil|apply subseq_refl]).
        specialize (R1 Hs1). specialize (R2 Hs2). unfold allv at 1. rewrite in_app_iff, HP, HQ.
        unfold allv. rewrite in_app_iff. destruct p; rewrite ?in_app_iff, ?R1, ?R2; cbn [In]; intuition (subst; auto). }
      destruct (sk id k m) eqn:Em.
      * assert (HN : cur_of q' id k = Some (tomsg m)).
        { unfold cur_of. assert (HF : find (sk id k) (allv q') = Some m); [|rewrite HF; auto]. apply find_iff; auto. split; auto. apply Hall. auto. }
        rewrite HN. assert (Hc : find (sk id k) (allv q) = old).
        { unfold old. clear - Hk Ho Em V. assert (Hkk : same_key key k = true /\ i = id).
          { unfold sk in Em. cbn [m new_msg v_id v_key] in Em. apply andb_true_iff in Em as [M1 M2]. split; auto. lia. }
          destruct Hkk as [Hkk ->].
          assert (HX : forall x, In x (allv q) -> sk id k x = sk id key x).
          { intros x Hx. pose proof (ix_key _ _ _ _ (vi_ix _ _ q V) x Hx) as Px. unfold sk. f_equal.
            destruct (same_key (v_key x) k) eqn:E1, (same_key (v_key x) key) eqn:E2; auto.
            - rewrite <- E2. symmetry. apply (gc_trans _ _ _ (good_vclass fl sidof) _ k); auto. rewrite (same_sym fl sidof); auto.
            - rewrite <- E1. apply (gc_trans _ _ _ (good_vclass fl sidof) _ key); auto. }
          revert HX. generalize (allv q). induction l as [|x l IH]; intros HX; auto. cbn. rewrite HX by (left; auto). destruct (sk id key x); auto.
          apply IH. intros; apply HX; right; auto. }
        unfold cur_of. rewrite Hc. destruct old as [o|]; cbn [option_map]; auto. rewrite !ts_tomsg. cbn [m new_msg v_data].
        destruct (_ <? _) eqn:El; auto. lia.
      * unfold cur_of. f_equal. destruct (find (sk id k) (allv q)) as [x|] eqn:Ex.
        -- apply find_iff in Ex as [Hx Hs]; auto. apply find_iff; auto. split; auto. apply Hall. right. split; auto. intro Hc.
           unfold old in Hc. apply find_some in Hc as [_ Hc]. unfold sk in Hc, Hs, Em. cbn [m new_msg v_id v_key] in Em.
           apply andb_true_iff in Hc as [C1 C2], Hs as [S1 S2]. assert (i = id) by lia. subst i. rewrite Z.eqb_refl in Em. cbn in Em.
           assert (same_key key k = true); [|congruence]. pose proof (ix_key _ _ _ _ (vi_ix _ _ q V) x Hx) as Px.
           apply (gc_trans _ _ _ (good_vclass fl sidof) _ (v_key x)); auto. rewrite (same_sym fl sidof); auto.
        -- rewrite find_niff in * by auto. intros x Hx. apply Hall in Hx as [-> | [Hx _]]; auto.
  - destruct (step_send q q' s I E) as [HS HL]. destruct I as [V _], I' as [V' _]. cbn [upd_newest].
    pose proof (pending_one q id k V Hk) as H1. pose proof (pending_one q' id k V' Hk) as H2. rewrite HS, filter_app, H2 in H1.
    unfold cur_of. destruct s as [|m [|m2 s]]; [| |cbn in HL; lia].
    + cbn in *. destruct (find (sk id k) (allv q')), (find (sk id k) (allv q)); cbn; congruence.
    + cbn [filter existsb] in *. destruct (about id k m) eqn:Ea; cbn [orb app] in *.
      * destruct (find (sk id k) (allv q')), (find (sk id k) (allv q)); cbn; congruence.
      * destruct (find (sk id k) (allv q')), (find (sk id k) (allv q)); cbn; congruence.
Qed.
Lemma run_newest ops q outs id k : Forall ok ops -> P k = true -> oq_run oq_new ops = Ok (q, outs) ->
  filter (about id k) (pending q) = match newest id k ops outs None with Some m => [m] | None => [] end.
Proof.
  intros HF Hk HE.
  destruct (run_ind fl sidof u Hu (fun q ops outs => length ops = length outs /\ cur_of q id k = newest id k ops outs None) oq_new) with (ops := ops) (q := q) (outs := outs)
    as [[_ HR] I]; auto.
  - clear - Hk Hu. intros q1 ops outs o q2 s [HL HR] I1 Ho E I2. split; [rewrite !app_length; cbn; lia|].
    rewrite newest_snoc by auto. rewrite <- HR. apply newest_step; auto.
  - apply oinv_new.
  - rewrite pending_one by (auto; apply I). rewrite <- HR. unfold cur_of. destruct (find _ _); auto.
Qed.

(** ** What a receiver makes of the announcements *)
Definition recv (V : Z -> bool) (m : omsg) : Z -> bool := fst (view_step 0 (V, 0) (EMsg 0 m)).
(** A receiver that also takes empty lists into account. *)
Definition recv' (V : Z -> bool) (m : omsg) : Z -> bool :=
  match m with MList l => fun s => existsb (Z.eqb s) l | _ => recv V m end.
Lemma fold_other l : Forall (fun m => match m with MList _ | MJoin _ | MLeave _ => False | _ => True end) l -> forall V, fold_left recv' l V = V.
Proof. induction 1 as [|m l Hm _ IH]; intro V; auto. cbn. rewrite IH. destruct m; tauto || auto. Qed.
Lemma fold_joins js : forall V s, fold_left recv' (map MJoin js) V s = existsb (Z.eqb s) js || V s.
Proof.
  induction js as [|j js IH]; intros V s; auto. cbn [map fold_left existsb]. rewrite IH. cbn. destruct (s =? j), (existsb _ js); auto.
Qed.
Lemma fold_leaves js : forall V s, fold_left recv' (map MLeave js) V s = negb (existsb (Z.eqb s) js) && V s.
Proof.
  induction js as [|j js IH]; intros V s; auto. cbn [map fold_left existsb]. rewrite IH. cbn. destruct (s =? j), (existsb _ js); auto.
Qed.
Lemma recv'_pending q V s : sinv u q -> fold_left recv' (pending q) V s =
  match o_list q with
  | l :: _ => existsb (Z.eqb s) l
  | [] => negb (existsb (Z.eqb s) (o_leave q)) && (existsb (Z.eqb s) (o_join q) || V s)
  end.
Proof.
  intro S. unfold pending. rewrite !fold_left_app.
  rewrite (fold_other (map _ (o_bc q))), (fold_other (map put_msg _)), (fold_other (map query_msg _))
    by (apply Forall_forall; intros m Hm; apply in_map_iff in Hm as (x & <- & _); exact I).
  rewrite fold_leaves, fold_joins. destruct (si_one u q S) as [-> |(l & -> & -> & -> & _)]; reflexivity.
Qed.
Lemma fold_ext l : forall V V', (forall s, V s = V' s) -> forall s, fold_left recv' l V s = fold_left recv' l V' s.
Proof.
  induction l as [|m l IH]; intros V V' H; auto. cbn. apply IH. intro s. destruct m; cbn; auto; try (rewrite H; auto).
Qed.
Lemma announced_app a b cur : announced (a ++ b) cur = announced b (announced a cur).
Proof. revert cur. induction a as [|o a IH]; intro cur; auto. destruct o; cbn; auto. Qed.

Lemma existsb_dict ids s : existsb (Z.eqb s) (dict_to_array ids) = existsb (fun e => (fst e =? s) && negb (snd e =? 0)) (pentries ids).
Proof.
  unfold dict_to_array. generalize (pentries ids). induction l as [|e l IH]; auto. cbn.
  destruct (snd e =? 0) eqn:E; cbn; rewrite IH, ?andb_false_r, ?andb_true_r; auto. rewrite (Z.eqb_sym s). auto.
Qed.
Lemma existsb_to l id s : existsb (Z.eqb s) (to_swarm_queue l id) = existsb (Z.eqb s) l || (s =? id).
Proof.
  destruct (existsb (Z.eqb s) (to_swarm_queue l id)) eqn:E.
  - apply existsb_eqb, to_in in E as [E | ->]; [apply existsb_eqb in E; rewrite E; auto|rewrite Z.eqb_refl, orb_true_r; auto].
  - apply existsb_eqb_f in E. rewrite to_in in E. destruct (existsb (Z.eqb s) l) eqn:E2; [apply existsb_eqb in E2; tauto|].
    destruct (s =? id) eqn:E3; auto. exfalso. apply E. right. lia.
Qed.
Lemma existsb_from l id s : NoDup l -> existsb (Z.eqb s) (from_swarm_queue l id) = existsb (Z.eqb s) l && negb (s =? id).
Proof.
  intro HN. destruct (existsb (Z.eqb s) (from_swarm_queue l id)) eqn:E.
  - apply existsb_eqb, from_in in E as [E Hn]; auto. apply existsb_eqb in E. rewrite E. destruct (s =? id) eqn:Es; [lia|auto].
  - apply existsb_eqb_f in E. rewrite from_in in E by auto. destruct (existsb (Z.eqb s) l) eqn:E2; auto. apply existsb_eqb in E2.
    destruct (s =? id) eqn:E3; auto. exfalso. apply E. split; auto. lia.
Qed.
Lemma announced_step q o q' sent V : oinv q -> ok o -> oq_step q o = Ok (q', sent) -> oinv q' -> o <> OSend ->
  forall s, fold_left recv' (pending q') V s = announced [o] (fold_left recv' (pending q) V) s.
Proof.
  intros [VI S] Ho E [V' S'] Hn s. rewrite (recv'_pending q' V s S').
  destruct o as [t v|ids|i|i|p i key d|]; [| | | | |congruence]; cbn [announced].
  - cbn [oq_step] in E. inversion E; subst. rewrite recv'_pending by auto. reflexivity.
  - cbn [oq_step] in E. inversion E; subst. rewrite append_list_eq with (u := u) by auto. cbn [set_swarm o_list]. apply existsb_dict.
  - cbn [oq_step] in E. destruct (joinleave_ok u Hu q true i S Ho) as (l & j & v & Ej & _ & HC). rewrite Ej in E. cbn [bind] in E. inversion E; subst q' sent. clear Ej E.
    cbn [set_swarm o_list o_join o_leave]. rewrite recv'_pending by auto. destruct HC as [(El & -> & -> & ->)|(l0 & l1 & El & -> & -> & -> & ->)]; rewrite El.
    + rewrite existsb_to, existsb_from by apply S. destruct (s =? i), (existsb _ (o_leave q)), (existsb _ (o_join q)); auto.
    + destruct (existsb (Z.eqb i) l0) eqn:Ex.
      * destruct (s =? i) eqn:Es; auto. assert (s = i) by lia. subst. auto.
      * rewrite existsb_app. cbn. rewrite orb_false_r. apply orb_comm.
  - cbn [oq_step] in E. destruct (joinleave_ok u Hu q false i S Ho) as (l & j & v & Ej & _ & HC). rewrite Ej in E. cbn [bind] in E. inversion E; subst q' sent. clear Ej E.
    cbn [set_swarm o_list o_join o_leave]. rewrite recv'_pending by auto. destruct HC as [(El & -> & -> & ->)|(l0 & l1 & El & -> & -> & -> & ->)]; rewrite El.
    + rewrite existsb_to, existsb_from by apply S. destruct (s =? i), (existsb _ (o_leave q)), (existsb _ (o_join q)); auto.
    + rewrite existsb_from; [apply andb_comm|]. destruct (si_one u q S) as [E|(l2 & E & _ & _ & HN & _)]; congruence.
  - cbn [oq_step] in E. destruct (append_vstig_ok fl sidof q p i key d VI Ho) as (q2 & Ev & _ & E1 & E2 & E3 & E4 & _).
    rewrite Ev in E. cbn [bind] in E. assert (q2 = q') by congruence. subst q2. rewrite recv'_pending by auto. rewrite E2, E3, E4. auto.
Qed.
Definition full (m : omsg) : Prop := m <> MList [].
Lemma recv_full V m : full m -> recv' V m = recv V m.
Proof. intro H. destruct m as [| [|x l] | | | |]; auto. exfalso. apply H. auto. Qed.
Lemma fold_full l : Forall full l -> forall V, fold_left recv' l V = fold_left recv l V.
Proof. induction 1 as [|m l Hm _ IH]; intro V; auto. cbn. rewrite recv_full by auto. auto. Qed.
Lemma announced_ext ops : forall c c', (forall s, c s = c' s) -> forall s, announced ops c s = announced ops c' s.
Proof.
  induction ops as [|o ops IH]; intros c c' H; auto. destruct o; cbn; apply IH; intros; rewrite ?H; auto.
Qed.
Lemma run_announced ops q outs : Forall ok ops -> oq_run oq_new ops = Ok (q, outs) ->
  forall s, fold_left recv' (concat outs ++ pending q) (fun _ => false) s = announced ops (fun _ => false) s.
Proof.
  intros HF HE.
  apply (run_ind fl sidof u Hu (fun q ops outs => forall s, fold_left recv' (concat outs ++ pending q) (fun _ => false) s = announced ops (fun _ => false) s) oq_new); auto.
  - clear - Hu. intros q1 ops outs o q2 s HR I1 Ho E I2 x. rewrite concat_snoc, announced_app.
    assert (HD : o = OSend \/ o <> OSend) by (destruct o; auto; right; discriminate). destruct HD as [-> | Hn].
    + destruct (step_send q1 q2 s I1 E) as [Hp _]. rewrite <- app_assoc, <- Hp. cbn [announced]. auto.
    + assert (s = []).
      { destruct o; cbn [oq_step] in E; try congruence; apply bind_ok in E as (q3 & _ & E); congruence. }
      subst s. rewrite app_nil_r, fold_left_app. rewrite (announced_step _ _ _ _ _ I1 Ho E I2 Hn).
      apply announced_ext. intro y. rewrite <- fold_left_app. apply HR.
  - apply oinv_new.
Qed.
(** Every list message names a swarm once. *)
Lemma pending_lists q : sinv u q -> Forall (fun m => match m with MList l => NoDup l | _ => True end) (pending q).
Proof.
  intro S. unfold pending. rewrite !Forall_app, !Forall_map. splits; try (apply Forall_forall; intros; exact I).
  destruct (si_one u q S) as [-> |(l & -> & _ & _ & HN & _)]; auto.
Qed.
Lemma run_lists ops q outs : Forall ok ops -> oq_run oq_new ops = Ok (q, outs) ->
  Forall (fun m => match m with MList l => NoDup l | _ => True end) (concat outs ++ pending q).
Proof.
  intros HF HE.
  assert (HR : Forall (fun m => match m with MList l => NoDup l | _ => True end) (concat outs) /\ oinv q).
  { apply (run_ind fl sidof u Hu (fun q ops outs => Forall (fun m => match m with MList l => NoDup l | _ => True end) (concat outs)) oq_new) with (ops := ops); auto.
    - clear - Hu. intros q1 ops outs o q2 s HR I1 Ho E I2. rewrite concat_snoc. apply Forall_app. split; auto.
      assert (HD : o = OSend \/ o <> OSend) by (destruct o; auto; right; discriminate). destruct HD as [-> | Hn].
      + destruct (step_send q1 q2 s I1 E) as [Hp _]. destruct I1 as [_ S1]. pose proof (pending_lists q1 S1) as HL. rewrite Hp in HL.
        apply Forall_app in HL. tauto.
      + assert (s = []); [|subst; auto]. destruct o; cbn [oq_step] in E; try congruence; apply bind_ok in E as (q3 & _ & E); congruence.
    - constructor.
    - apply oinv_new. }
  apply Forall_app. split; [apply HR|]. apply pending_lists. apply HR.
Qed.
Lemma receiver_run r l : Forall (fun m => match m with MList l => NoDup l | _ => True end) l -> Forall full l ->
  forall s, mb_isrobotin (fold_left (fun m msg => mb_receive m r msg) l mb_new) r s = fold_left recv' l (fun _ => false) s.
Proof.
  intros HL HF s.
  assert (H1 : fold_left (fun m msg => mb_receive m r msg) l mb_new = mb_run mb_new (map (EMsg r) l)).
  { unfold mb_run. generalize mb_new. clear. induction l; intro m; auto. cbn. auto. }
  assert (HE : Forall mev_ok (map (EMsg r) l)) by (rewrite Forall_map; exact HL).
  rewrite H1, (isrobotin_view _ _ r s (members_follow _ HE _ _ minv_new)). rewrite fold_full by auto. clear H1 HE HL HF.
  assert (HG : forall l V a, fst (fold_left (view_step r) (map (EMsg r) l) (V, a)) s = fold_left recv l V s).
  { induction l0 as [|m l0 IH]; intros V a; auto. cbn [map fold_left].
    assert (exists a', view_step r (V, a) (EMsg r m) = (recv V m, a')) as [a' ->].
    { unfold recv. cbn [view_step]. rewrite !Z.eqb_refl. destruct m as [| [|x ids] | | | |]; eexists; reflexivity. }
    apply IH. }
  apply HG.
Qed.
End Run.
