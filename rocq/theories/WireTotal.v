From Verif Require Import Base ListLemmas Float Dict PDict DictSpec DictProofs PDictKeys Strman StrmanSpec StrmanProofs
  Msg MsgProofs FloatProofs Obj Wire WireSpec WireProofs.

(** Outcome of a decoder that stays inside the message and leaves the string manager usable. *)
Definition okpos (buf : payload) (pos : Z) (r : res (option (wobj * Z) * strman)) : Prop :=
  match r with
  | Ok (Some (_, p), sm') => pos < p <= zlen buf /\ sm_good sm' (zlen buf - p)
  | Ok (None, sm') => sm_good sm' 0
  | Hang => False
  | Abort | UB => True
  end.

Lemma reg_string_spec sm s k : 0 <= k -> sm_good sm (k + 1) ->
  exists w sm', reg_string sm s = Ok (w, sm') /\ sm_good sm' k.
Proof. intros H1 H2. destruct (reg_string_ok sm s k H1 H2) as (i & sm' & E & _ & G). eauto. Qed.

Lemma rfind_no_hang k (l : list (wobj * wobj)) : rdel wcmp k l <> Hang.
Proof.
  induction l as [|e l IH]; cbn; [discriminate|].
  destruct (wcmp k (fst e)) eqn:E; cbn; try discriminate.
  - destruct (a =? 0); [discriminate|]. destruct (rdel wcmp k l); cbn; congruence.
  - exfalso. revert E. unfold wcmp. generalize (key_of k), (key_of (fst e)). intros a b.
    assert (HS : forall s, sprintf30 s <> Hang) by (intro s; unfold sprintf30; destruct (zlen s <? 30); discriminate).
    destruct a, b; cbn; try discriminate;
      match goal with |- context [sprintf30 ?x] => generalize (HS x); destruct (sprintf30 x) end; cbn; congruence.
Qed.
Lemma rset_no_hang (t : pdict wobj wobj) k v : rset whash wcmp t k v <> Hang.
Proof.
  unfold rset, rslot. destruct (whash k) eqn:E; cbn; try discriminate.
  - pose proof (rfind_no_hang k (nth (Z.to_nat (a mod zlen t)) t [])) as H.
    destruct (rdel _ _ _); cbn; congruence.
  - exfalso. revert E. unfold whash. destruct (key_of k); cbn; try discriminate.
    unfold f_to_uint32. destruct (f_trunc f); cbn; try discriminate. destruct (_ && _); discriminate.
Qed.

Lemma de_entries_bounds f buf :
  (forall pos sm, 0 <= pos <= zlen buf -> zlen buf - pos < Z.of_nat f -> sm_good sm (zlen buf - pos) ->
     okpos buf pos (obj_deser f buf pos sm)) ->
  forall n t pos sm p0, 0 <= p0 < pos -> pos <= zlen buf -> zlen buf - pos < Z.of_nat f -> sm_good sm (zlen buf - pos) ->
  okpos buf p0 (de_entries f buf n t pos sm).
Proof.
  intro IH. induction n as [|n IHn]; intros t pos sm p0 H0 H1 Hf HS.
  - cbn. split; [lia|auto].
  - unfold de_entries; fold de_entries.
    pose proof (IH pos sm ltac:(lia) ltac:(lia) HS) as H. unfold okpos in H.
    destruct (obj_deser f buf pos sm) as [[[[k p1]|] sm1]| | |]; cbn [bind]; auto.
    destruct H as [Hp1 HS1].
    pose proof (IH p1 sm1 ltac:(lia) ltac:(lia) HS1) as H. unfold okpos in H.
    destruct (obj_deser f buf p1 sm1) as [[[[v p2]|] sm2]| | |]; cbn [bind]; auto.
    destruct H as [Hp2 HS2].
    pose proof (rset_no_hang t k v) as HH. destruct (rset whash wcmp t k v) as [t'| | |]; cbn [bind okpos]; auto.
    apply (IHn t' p2 sm2 p0); auto; lia.
Qed.

Lemma deser_bounds buf : zlen buf < 2 ^ 32 - 65536 -> forall f pos sm,
  0 <= pos <= zlen buf -> zlen buf - pos < Z.of_nat f -> sm_good sm (zlen buf - pos) ->
  okpos buf pos (obj_deser f buf pos sm).
Proof.
  intro HB. induction f as [|f IH]; intros pos sm Hp Hf HS; [lia|].
  pose proof (de_u8_bounds buf pos ltac:(lia)) as H1.
  destruct (de_u8 buf pos) as [[[ty p]|]| | |] eqn:E1; cbn in H1; try tauto.
  2:{ cbn [obj_deser]. rewrite E1. cbn. eapply sm_good_mono; [|exact HS]. lia. }
  assert (HSp : sm_good sm (zlen buf - p)) by (eapply sm_good_mono; [|exact HS]; lia).
  assert (HS0 : sm_good sm 0) by (eapply sm_good_mono; [|exact HS]; lia).
  destruct (Z.eq_dec ty T_TABLE) as [->|Hty].
  - rewrite (obj_deser_tab f buf pos sm p E1).
    pose proof (de_u8_bounds buf p ltac:(lia)) as H2.
    destruct (de_u8 buf p) as [[[size p']|]| | |] eqn:E2; cbn in H2; try contradiction; cbn [bind]; try exact HS0.
    apply de_entries_bounds; try lia; [|eapply sm_good_mono; [|exact HS]; lia].
    intros pos' sm' Hp' Hf' HS'. apply IH; auto.
  - cbn [obj_deser]. rewrite E1. cbn [bind].
    destruct (ty =? T_NIL); [cbn; split; [lia|auto]|].
    destruct (ty =? T_INT).
    { pose proof (de_u32_bounds buf p ltac:(lia)) as H2.
      destruct (de_u32 buf p) as [[[z p']|]| | |]; cbn in H2; try contradiction; cbn [bind okpos]; try exact HS0.
      split; [lia|]. eapply sm_good_mono; [|exact HS]; lia. }
    destruct (ty =? T_FLOAT).
    { pose proof (de_float_bounds buf p ltac:(lia)) as H2.
      destruct (de_float buf p) as [[[z p']|]| | |]; try tauto; cbn [bind okpos]; try exact HS0; auto.
      split; [lia|]. eapply sm_good_mono; [|exact HS]; lia. }
    destruct (ty =? T_STRING).
    { pose proof (de_string_bounds buf p ltac:(lia) HB) as H2.
      destruct (de_string buf p) as [[[s p']|]| | |]; cbn in H2; try contradiction; cbn [bind okpos]; try exact HS0.
      destruct (reg_string_spec sm s (zlen buf - p')) as (w & sm' & E & G); [lia|eapply sm_good_mono; [|exact HS]; lia|].
      rewrite E. cbn. split; [lia|auto]. }
    destruct (ty =? T_TABLE) eqn:E; [lia|].
    destruct (ty =? T_CLOSURE).
    { pose proof (de_u8_bounds buf p ltac:(lia)) as H2.
      destruct (de_u8 buf p) as [[[z p']|]| | |]; cbn in H2; try contradiction; cbn [bind okpos]; try exact HS0.
      pose proof (de_u32_bounds buf p' ltac:(lia)) as H3.
      destruct (de_u32 buf p') as [[[z2 p2]|]| | |]; cbn in H3; try contradiction; cbn [bind okpos]; try exact HS0.
      split; [lia|]. eapply sm_good_mono; [|exact HS]; lia. }
    destruct (ty =? T_USERDATA); cbn; auto.
Qed.
