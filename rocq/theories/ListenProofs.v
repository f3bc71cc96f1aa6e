From Verif Require Import Base ListLemmas Float Dict PDict DictSpec DictProofs PDictKeys Strman StrmanProofs Msg Obj Wire WireSpec WireProofs Instr Vm VmSpec Strlib CFunSpec CFunProofs
  InMsg InMsgSpec InMsgProofs Messages Listen ListenSpec.

(** ** Contents of objects *)
Definition ents (R : obj -> wobj -> Prop) := Forall2 (fun (e : obj * obj) (e' : wobj * wobj) => R (fst e) (fst e') /\ R (snd e) (snd e')).
Lemma Forall2_imp2 {A B} (P Q : A -> B -> Prop) l l' : Forall2 P l l' -> (forall a b, In b l' -> P a b -> Q a b) -> Forall2 Q l l'.
Proof. induction 1; intro HI; constructor; [apply HI; [left; auto|auto]|apply IHForall2; intros; apply HI; [right|]; auto]. Qed.
Lemma repr_agree lo h h' w : (forall i, lo <= Z.of_nat i -> nth_error h i <> None -> nth_error h' i = nth_error h i) -> forall o, repr lo h o w -> repr lo h' o w.
Proof.
  intro HA. induction w using wobj_ind'; intros o HR; inversion HR; subst; try constructor; auto.
  econstructor; eauto. { rewrite HA; [auto|lia|congruence]. } rewrite Forall_forall in H.
  eapply Forall2_imp2; [eassumption|]. intros [k x] [k' x'] Hin [A1 A2]. destruct (H _ Hin). cbn in *. auto.
Qed.
Lemma repr_lo lo lo' h w : lo' <= lo -> forall o, repr lo h o w -> repr lo' h o w.
Proof.
  intro HL. induction w using wobj_ind'; intros o HR; inversion HR; subst; try constructor; auto.
  econstructor; eauto; [lia|]. rewrite Forall_forall in H.
  eapply Forall2_imp2; [eassumption|]. intros [k x] [k' x'] Hin [A1 A2]. destruct (H _ Hin). cbn in *. auto.
Qed.
Lemma repr_app lo h ext o w : repr lo h o w -> repr lo (h ++ ext) o w.
Proof. intro H. eapply repr_agree; [|exact H]. intros i _ Hi. apply nth_error_app1, nth_error_Some. auto. Qed.
Lemma ents_app_heap lo h ext l l' : ents (repr lo h) l l' -> ents (repr lo (h ++ ext)) l l'.
Proof. intro H. eapply Forall2_imp2; [exact H|]. intros a b _ [H1 H2]. split; apply repr_app; auto. Qed.

(** ** import *)
Fixpoint imp_chain (l : list (wobj * wobj)) (h : list table) : list (obj * obj) * list table :=
  match l with
  | [] => ([], h)
  | (k, x) :: l' =>
      let '(k', h1) := import k h in
      let '(x', h2) := import x h1 in
      let '(l'', h3) := imp_chain l' h2 in ((k', x') :: l'', h3)
  end.
Fixpoint imp_go (bs : list (list (wobj * wobj))) (h : list table) : table * list table :=
  match bs with
  | [] => ([], h)
  | b :: r => let '(b', h1) := imp_chain b h in let '(r', h2) := imp_go r h1 in (b' :: r', h2)
  end.
Lemma import_tab bs h : import (WTab bs) h = let '(t, h') := imp_go bs (h ++ [tab_new]) in (OTab (zlen h), upd h' (length h) t).
Proof.
  reflexivity.
Qed.
(** Objects that can have come from another robot. *)
Definition came (w : wobj) : Prop := exists h0 o0 w0, repr 0 h0 o0 w0 /\ weq w0 w.
Lemma came_tab bs : came (WTab bs) -> Forall (fun e => came (fst e) /\ came (snd e)) (concat bs).
Proof.
  intros (h0 & o0 & w0 & HR & HQ). inversion HQ as [| | | | |bs0 bs' l HP HF HG |]; subst. inversion HR as [| | | | | |a t bs1 Ha HLo HN HM HE]; subst.
  rewrite Forall_forall. intros e He. apply (Permutation_in _ HP) in He. revert HF He HE. generalize (concat bs0) (concat t). clear. intros c0 ct HF. revert ct.
  induction HF as [|a b c0 l [H1 H2] HF IH]; intros ct He HE; [destruct He|]. inversion HE as [|e1 e2 c1 c2 [R1 R2] HE']; subst.
  destruct He as [<- | He]; [|eauto]. split; unfold came; eauto 6.
Qed.
Definition imp_ok (w : wobj) : Prop := came w -> forall h, exists o ext, import w h = (o, h ++ ext) /\ repr (zlen h) (h ++ ext) o w.
Lemma imp_chain_ok l : Forall (fun e => imp_ok (fst e) /\ imp_ok (snd e)) l -> Forall (fun e => came (fst e) /\ came (snd e)) l ->
  forall h, exists l' ext, imp_chain l h = (l', h ++ ext) /\ length l' = length l /\ ents (repr (zlen h) (h ++ ext)) l' l.
Proof.
  induction l as [|[k x] l IH]; intros HF HC h; cbn [imp_chain].
  { exists [], []. rewrite app_nil_r. repeat split; constructor. }
  inversion HF as [|? ? [Hk Hx] HF']; subst. inversion HC as [|? ? [Ck Cx] HC']; subst. cbn [fst snd] in *.
  destruct (Hk Ck h) as (k' & e1 & E1 & R1). rewrite E1. destruct (Hx Cx (h ++ e1)) as (x' & e2 & E2 & R2). rewrite E2.
  destruct (IH HF' HC' ((h ++ e1) ++ e2)) as (l' & e3 & E3 & L3 & R3). rewrite E3.
  exists ((k', x') :: l'), (e1 ++ e2 ++ e3). split; [rewrite <- !app_assoc; reflexivity|]. split; [cbn; lia|].
  assert (HLe : zlen h <= zlen (h ++ e1) /\ zlen h <= zlen ((h ++ e1) ++ e2)) by (rewrite !zlen_app; pose proof (zlen_nonneg e1); pose proof (zlen_nonneg e2); lia).
  constructor.
  - cbn [fst snd]. split.
    + rewrite app_assoc. apply repr_app. auto.
    + eapply repr_lo; [apply (proj1 HLe)|]. replace (h ++ e1 ++ e2 ++ e3) with (((h ++ e1) ++ e2) ++ e3) by (rewrite <- !app_assoc; auto). apply repr_app. auto.
  - replace (h ++ e1 ++ e2 ++ e3) with (((h ++ e1) ++ e2) ++ e3) by (rewrite <- !app_assoc; auto).
    eapply Forall2_imp2; [exact R3|]. intros a b _ [A1 A2]. split; (eapply repr_lo; [apply (proj2 HLe)|auto]).
Qed.
Lemma imp_go_ok bs : Forall (fun e => imp_ok (fst e) /\ imp_ok (snd e)) (concat bs) -> Forall (fun e => came (fst e) /\ came (snd e)) (concat bs) ->
  forall h, exists t ext, imp_go bs h = (t, h ++ ext) /\ map (@length _) t = map (@length _) bs /\ ents (repr (zlen h) (h ++ ext)) (concat t) (concat bs).
Proof.
  induction bs as [|b bs IH]; intros HF HC h; cbn [imp_go].
  { exists [], []. rewrite app_nil_r. repeat split; constructor. }
  cbn [concat] in HF, HC. apply Forall_app in HF as [F1 F2]. apply Forall_app in HC as [C1 C2].
  destruct (imp_chain_ok b F1 C1 h) as (b' & e1 & E1 & L1 & R1). rewrite E1.
  destruct (IH F2 C2 (h ++ e1)) as (t & e2 & E2 & L2 & R2). rewrite E2. exists (b' :: t), (e1 ++ e2).
  split; [rewrite <- app_assoc; reflexivity|]. split; [cbn; congruence|]. cbn [concat]. apply Forall2_app.
  - rewrite app_assoc. apply ents_app_heap. auto.
  - rewrite app_assoc. eapply Forall2_imp2; [exact R2|]. intros a c _ [A1 A2].
    assert (zlen h <= zlen (h ++ e1)) by (rewrite zlen_app; pose proof (zlen_nonneg e1); lia).
    split; (eapply repr_lo; [eassumption|auto]).
Qed.
Lemma import_ok w : imp_ok w.
Proof.
  induction w using wobj_ind'; intros HC h; try (exists (fst (import WNil h)), []; rewrite app_nil_r; split; [reflexivity|constructor]; fail);
    try (eexists _, []; rewrite app_nil_r; split; [reflexivity|constructor]; fail).
  - rewrite import_tab. destruct (imp_go_ok bs H (came_tab _ HC) (h ++ [tab_new])) as (t & ext & E & L & R). rewrite E.
    assert (EU : upd ((h ++ [tab_new]) ++ ext) (length h) t = h ++ t :: ext).
    { rewrite <- app_assoc. cbn [app]. clear. generalize (tab_new). intro t0. induction h as [|a h IH]; cbn [app upd length]; [reflexivity|rewrite IH; reflexivity]. }
    rewrite EU. exists (OTab (zlen h)), (t :: ext). split; [reflexivity|].
    assert (EN : nth_error (h ++ t :: ext) (Z.to_nat (zlen h)) = Some t).
    { unfold zlen. rewrite Nat2Z.id, nth_error_app2, Nat.sub_diag by lia. reflexivity. }
    econstructor; [unfold zlen; lia|lia|exact EN|auto|].
    eapply Forall2_imp2; [exact R|]. intros a b _ [A1 A2].
    assert (HL : zlen h <= zlen (h ++ [tab_new])) by (rewrite zlen_app; change (zlen [tab_new]) with 1; lia).
    split; (eapply repr_lo; [exact HL|]; eapply repr_agree; [|eassumption]).
    all: intros i Hi _; rewrite zlen_app in Hi; change (zlen [tab_new]) with 1 in Hi; unfold zlen in Hi; rewrite <- app_assoc; cbn [app];
      rewrite !nth_error_app2 by lia; destruct (i - length h)%nat eqn:E0; [lia|reflexivity].
  - destruct HC as (h0 & o0 & w0 & HR & HQ). inversion HQ; subst. inversion HR as [| | | |b r0 act| |]. subst.
    rewrite H2. exists (OClos b r [ONil]), []. rewrite app_nil_r. split; [destruct b; reflexivity|exact (rp_clos _ _ b r [ONil])].
Qed.

(** ** snapshot *)
Lemma Forall2_in_l {A B} (R : A -> B -> Prop) l l' a : Forall2 R l l' -> In a l -> exists b, In b l' /\ R a b.
Proof. induction 1; intros []; subst; [exists y; split; [left|]; auto|destruct IHForall2 as (b & ? & ?); auto; exists b; split; [right|]; auto]. Qed.

Fixpoint snap_chain (f : nat) (h : list table) (k0 : list (wobj * wobj) -> res wobj) (l : list (obj * obj)) (acc1 : list (wobj * wobj)) : res wobj :=
  match l with
  | [] => k0 acc1
  | (k, x) :: l' => k' <- snapshot f h k ;; x' <- snapshot f h x ;; snap_chain f h k0 l' (acc1 ++ [(k', x')])
  end.
Fixpoint snap_go (f : nat) (h : list table) (t : table) (acc : list (list (wobj * wobj))) : res wobj :=
  match t with
  | [] => Ok (WTab acc)
  | b :: t' => snap_chain f h (fun acc1 => snap_go f h t' (acc ++ [acc1])) b []
  end.
Lemma snap_tab f0 h a t : 0 <= a -> nth_error h (Z.to_nat a) = Some t -> snapshot (S f0) h (OTab a) = snap_go f0 h t [].
Proof.
  intros Ha E. cbn [snapshot]. replace (0 <=? a) with true by lia. rewrite E.
  match goal with |- ?f t [] = _ => assert (EE : forall t acc, f t acc = snap_go f0 h t acc) end.
  { clear. induction t as [|b t IH]; intro acc; [reflexivity|]. cbn [snap_go].
    match goal with |- ?g b [] = _ => assert (EE : forall b acc1, g b acc1 = snap_chain f0 h (fun acc1 => snap_go f0 h t (acc ++ [acc1])) b acc1) end.
    { clear - IH. induction b as [|[k x] l IHl]; intro acc1; cbn [snap_chain]; [apply IH|].
      destruct (snapshot f0 h k); cbn [bind]; auto. destruct (snapshot f0 h x); cbn [bind]; auto. }
    apply EE. }
  apply EE.
Qed.
Definition snaps (n : nat) (h : list table) (o : obj) (w : wobj) : Prop := forall f, (n <= f)%nat -> snapshot f h o = Ok w.
Lemma snap_chain_ok f h k0 l l' : ents (fun o w => snapshot f h o = Ok w) l l' -> forall acc, snap_chain f h k0 l acc = k0 (acc ++ l').
Proof.
  induction 1 as [|[k x] [k' x'] l l' [H1 H2] HF IH]; intro acc; cbn [snap_chain]; [rewrite app_nil_r; auto|]. cbn [fst snd] in *. rewrite H1. cbn [bind]. rewrite H2. cbn [bind].
  rewrite IH, <- app_assoc. reflexivity.
Qed.
Lemma snap_go_ok f h t : forall bs, map (@length _) t = map (@length _) bs -> ents (fun o w => snapshot f h o = Ok w) (concat t) (concat bs) ->
  forall acc, snap_go f h t acc = Ok (WTab (acc ++ bs)).
Proof.
  induction t as [|b t IH]; intros [|c bs] HL HE acc; cbn [snap_go map concat] in *; try discriminate; [rewrite app_nil_r; auto|].
  inversion HL as [[L1 L2]]. apply Forall2_app_inv_l in HE as (c1 & c2 & E1 & E2 & EE).
  assert (c1 = c /\ c2 = concat bs) as [-> ->].
  { assert (L : length b = length c1) by (clear - E1; induction E1; cbn; congruence). rewrite L in L1. clear - EE L1. revert c L1 EE. induction c1 as [|x c1 IH]; intros [|y c] L1 EE; cbn in *; try discriminate; auto.
    inversion EE; subst. destruct (IH c) as [-> ->]; auto. }
  rewrite (snap_chain_ok _ _ _ _ _ E1). cbn [app]. rewrite (IH bs L2 E2), <- app_assoc. reflexivity.
Qed.
Lemma snapshot_ok lo h w : forall o, repr lo h o w -> exists n, snaps n h o w.
Proof.
  induction w using wobj_ind'; intros o HR; try (inversion HR; subst; exists 1%nat; intros [|fu] Hf; [lia|reflexivity]).
  inversion HR as [| | | | | |ad t bs1 Ha HLo HN HM HE]; subst.
  assert (HX : exists n, ents (snaps n h) (concat t) (concat bs)).
  { revert H HE. generalize (concat bs) (concat t). clear. intros c. induction c as [|[k x] c IH]; intros ct HF HE; inversion HE as [|[k' x'] ? ? ? [R1 R2] HE']; subst.
    { exists O. constructor. }
    inversion HF as [|? ? [F1 F2] HF']; subst. cbn [fst snd] in *. destruct (IH _ HF' HE') as (n & Hn). destruct (F1 _ R1) as (n1 & H1). destruct (F2 _ R2) as (n2 & H2).
    exists (max n (max n1 n2)). constructor.
    - cbn [fst snd]. split; intros f Hf; [apply H1|apply H2]; lia.
    - eapply Forall2_imp2; [exact Hn|]. intros a b _ [A1 A2]. split; intros f Hf; [apply A1|apply A2]; lia. }
  destruct HX as (n & HX). exists (S n). intros [|f] Hf; [lia|]. rewrite (snap_tab _ _ _ _ Ha HN). apply (snap_go_ok f h t bs HM).
  eapply Forall2_imp2; [exact HX|]. intros x y _ [A1 A2]. split; [apply A1|apply A2]; lia.
Qed.

(** ** Listeners *)
Lemma lis_hist hist : Forall lop_ok hist -> PWf int16keyhash u16_eqb (fold_right lis_apply (pnew 10) hist) /\
  forall t, 0 <= t < 65536 -> lis_get (fold_right lis_apply (pnew 10) hist) t = listener hist t.
Proof.
  induction 1 as [|op hist Ho Hh [IW IG]]; cbn [fold_right listener].
  { split; [apply (wf_new _ _ _ good_i16); lia|]. intros t Ht. apply (get_new _ _ _ good_i16). lia. }
  destruct op as [t0 f|t0]; cbn [lis_apply lop_ok] in *; unfold lis_get, lis_set, lis_remove in *; split.
  - apply (wf_set _ _ _ good_i16). auto.
  - intros t Ht. rewrite (get_set _ _ _ good_i16) by auto. rewrite u16_eqb_rng by lia. destruct (t0 =? t); auto.
  - apply (wf_remove _ _ _ good_i16). auto.
  - intros t Ht. rewrite (get_remove _ _ _ good_i16) by auto. rewrite u16_eqb_rng by lia. destruct (t0 =? t); auto.
Qed.

(** ** The queue *)
Lemma inq_run_snoc {P} ops : forall (q q1 : inq P) outs, inq_run q ops = Ok (q1, outs) ->
  inq_run q (ops ++ [IExtract]) = ('(o, q2) <- inq_extract q1 ;; Ok (q2, outs ++ [o])).
Proof.
  induction ops as [|[r p|] ops IH]; intros q q1 outs H; cbn [inq_run app] in *.
  - inversion H; subst. destruct (inq_extract q1) as [[o q2]| | |]; reflexivity.
  - apply IH. auto.
  - destruct (inq_extract q) as [[o q0]| | |]; cbn [bind] in *; try discriminate.
    destruct (inq_run q0 ops) as [[q3 os]| | |] eqn:E; cbn [bind] in *; try discriminate. inversion H; subst. rewrite (IH _ _ _ E).
    destruct (inq_extract q1) as [[o1 q2]| | |]; reflexivity.
Qed.
Lemma appended_snoc {P} (ops : list (iop P)) : appended (ops ++ [IExtract]) = appended ops.
Proof. induction ops as [|[r p|] ops IH]; cbn; auto. congruence. Qed.
Lemma handed_snoc {P} (outs : list (option (Z * P))) x : handed (outs ++ [Some x]) = handed outs ++ [x].
Proof. induction outs as [|[y|] outs IH]; cbn; auto. congruence. Qed.
Lemma queued_step q pend : queued q pend ->
  (inq_isempty q = true /\ pend = []) \/
  (inq_isempty q = false /\ exists r p q' pend', inq_extract q = Ok (Some (r, p), q') /\ Permutation pend ((r, p) :: pend') /\ queued q' pend').
Proof.
  intros (ops & outs & E & HP). destruct (run_delivers ops _ _ inv_new) as (q1 & outs1 & pend1 & HR & HD & HI). rewrite E in HR. inversion HR; subst q1 outs1.
  pose proof (delivers_perm _ _ _ _ HD) as HP1. cbn [app] in HP1.
  assert (HE : Permutation pend pend1) by (apply (Permutation_app_inv_l (handed outs)); rewrite <- HP; auto).
  destruct (inv_extract q pend1 HI) as [[-> EX]|(l1 & r & p & l2 & q' & -> & _ & EX & HI')].
  - left. split; [|apply Permutation_sym, Permutation_nil in HE; auto]. unfold inq_extract in EX. destruct (inq_isempty q); auto. destruct (first_entry q) as [[r0 l0]|]; [|discriminate]. destruct (rev l0); discriminate.
  - right. split; [unfold inq_extract in EX; destruct (inq_isempty q); [inversion EX|auto]|]. exists r, p, q', (l1 ++ l2). split; auto. split.
    + rewrite HE. symmetry. apply Permutation_middle.
    + exists (ops ++ [IExtract]), (outs ++ [Some (r, p)]). rewrite (inq_run_snoc _ _ _ _ E), EX. split; [reflexivity|]. rewrite appended_snoc, handed_snoc, <- app_assoc. cbn [app].
      rewrite HP1. apply Permutation_app_head. symmetry. apply Permutation_middle.
Qed.
