(** Out-of-range writes to dynamic arrays (C02). *)
From Verif Require Import Base ListLemmas Darray DarraySpec DarrayRun DarrayProofs.

Section O.
Context {A : Type}.

(** Like [Rep], but elements may be indeterminate. *)
Definition RepG (d : darray A) (m : list (option A)) (esz : Z) : Prop :=
  d_esz d = esz /\ 0 < esz /\ d_size d = zlen m /\
  (exists rest, d_mem d = m ++ rest) /\
  zlen (d_mem d) = d_cap d /\ 1 <= d_cap d /\ d_cap d * esz < 2 ^ 32.

Lemma Rep_RepG d l esz : Rep d l esz <-> RepG d (map Some l) esz.
Proof. unfold Rep, RepG. rewrite zlen_map. tauto. Qed.

Lemma makeslot_end d m esz pos :
  RepG d m esz -> zlen m <= pos -> 2 * (zlen m + 1) * esz < 2 ^ 32 ->
  exists d' x, da_makeslot d pos = Ok d' /\ RepG d' (m ++ [x]) esz.
Proof.
  intros (He & He0 & Hs & [rest Hm] & HL & Hc1 & Hcb) Hp Hb.
  pose proof (zlen_nonneg m) as Hl0.
  assert (Hsc : zlen m <= d_cap d).
  { rewrite <- HL, Hm, zlen_app. pose proof (zlen_nonneg rest). lia. }
  unfold da_makeslot. rewrite Hs, He.
  destruct (pos <? zlen m) eqn:Ep; [lia|]. rewrite wrap32_id by nia.
  assert (HG : exists d1 rest1,
     (if zlen m + 1 >=? d_cap d
      then if d_cap d =? 0 then Abort
           else c <- grow_cap 33 (zlen m) (d_cap d) ;;
                mm <- realloc (d_mem d) (wrap32 (c * esz)) esz ;;
                Ok (mkDa mm (zlen m) c esz)
      else Ok d) = Ok d1 /\ d_esz d1 = esz /\ d_size d1 = zlen m /\
     d_mem d1 = m ++ rest1 /\ zlen (d_mem d1) = d_cap d1 /\
     zlen m + 1 < d_cap d1 /\ d_cap d1 * esz < 2 ^ 32).
  { destruct (zlen m + 1 >=? d_cap d) eqn:E.
    - destruct (d_cap d =? 0) eqn:E0; [lia|].
      assert (Hb2 : 2 * (zlen m + 1) < 2 ^ 32) by nia.
      assert (Hb3 : zlen m + 1 < d_cap d * 2 ^ Z.of_nat 33).
      { change (2 ^ Z.of_nat 33) with 8589934592. lia. }
      destruct (grow_cap_ok 33 (zlen m) (d_cap d)) as (c & Hg & Hlt & Hle); try lia.
      rewrite Hg. cbn [bind].
      assert (Hcb2 : c * esz < 2 ^ 32) by nia.
      rewrite wrap32_id by nia.
      unfold realloc. destruct (c * esz =? 0) eqn:E1; [nia|].
      rewrite slots_of_mul by lia. cbn [bind].
      assert (HlenN : (length (d_mem d) <= Z.to_nat c)%nat) by (unfold zlen in *; lia).
      rewrite firstn_all2 by lia.
      eexists; exists (rest ++ repeat None (Z.to_nat c - length (d_mem d))). split; [reflexivity|].
      cbn [d_esz d_size d_mem d_cap]. repeat split; try lia.
      + rewrite Hm at 1. rewrite <- app_assoc. reflexivity.
      + rewrite zlen_app. unfold zlen at 2. rewrite repeat_length. unfold zlen. lia.
    - exists d, rest. repeat split; auto; lia. }
  destruct HG as (d1 & rest1 & HGe & He1 & Hs1 & Hm1 & HL1 & Hc11 & Hcb1).
  rewrite HGe. cbn [bind]. rewrite Hs1, He1.
  destruct (negb (zlen m =? 0) && (zlen m <? zlen m)) eqn:E; [lia|]. cbn [bind].
  destruct rest1 as [|r0 rest1].
  { rewrite Hm1, app_nil_r in HL1. lia. }
  eexists; exists r0. split; [reflexivity|].
  repeat split; cbn [d_esz d_size d_mem d_cap]; try lia.
  - rewrite zlen_app, zlen_cons, zlen_nil. lia.
  - exists rest1. rewrite Hm1. apps. reflexivity.
Qed.

Lemma insert_out_ok fuel : forall d m esz pos v,
  RepG d m esz -> zlen m <= pos -> pos - zlen m < Z.of_nat fuel ->
  2 * (pos + 1) * esz < 2 ^ 32 ->
  exists d' gap, da_insert_f fuel d pos v = Ok d' /\
    RepG d' (m ++ gap ++ [Some v]) esz /\ zlen gap = pos - zlen m.
Proof.
  induction fuel as [|f IH]; intros d m esz pos v HR Hp Hf Hb; [lia|].
  pose proof (zlen_nonneg m) as Hl0.
  pose proof HR as (_ & He0 & _).
  cbn [da_insert_f].
  destruct (makeslot_end d m esz pos HR Hp) as (d1 & x & H1 & HR1); [nia|].
  rewrite H1. cbn [bind].
  pose proof HR1 as (He1 & _ & Hs1 & [rest Hm1] & HL1 & Hc1 & Hcb1).
  rewrite zlen_app, zlen_cons, zlen_nil in Hs1. rewrite Hs1.
  destruct (pos <? zlen m + (0 + 1)) eqn:E.
  - assert (pos = zlen m) by lia. subst pos.
    unfold slot_addr. rewrite He1.
    assert (HA : (0 <=? zlen m) && (zlen m * esz <? 2 ^ 32) = true) by nia.
    rewrite HA. cbn [bind]. unfold slot_write.
    replace (Z.to_nat (zlen m)) with (length m) by (unfold zlen; lia).
    destruct (length m <? length (d_mem d1))%nat eqn:E2.
    2:{ rewrite Hm1, !app_length in E2. cbn [length] in E2. lia. }
    eexists; exists []. split; [reflexivity|]. split; [|rewrite zlen_nil; lia].
    repeat split; cbn [d_esz d_size d_mem d_cap app]; auto.
    + rewrite zlen_app, zlen_cons, zlen_nil. lia.
    + exists rest. rewrite Hm1. apps. rewrite upd_app_r by lia.
      rewrite Nat.sub_diag. reflexivity.
    + unfold zlen. rewrite upd_length. exact HL1.
  - destruct (IH d1 (m ++ [x]) esz pos v HR1) as (d' & gap & H2 & H3 & H4).
    + rewrite zlen_app, zlen_cons, zlen_nil. lia.
    + rewrite zlen_app, zlen_cons, zlen_nil. lia.
    + exact Hb.
    + exists d', (x :: gap). split; [exact H2|]. split; [apps_in H3; exact H3|].
      rewrite zlen_app, !zlen_cons, zlen_nil in *. lia.
Qed.

(** What an out-of-range set really does: the array grows. *)
Theorem set_out_grows (d : darray A) (l : list A) esz pos v :
  Rep d l esz -> zlen l <= pos -> 2 * (pos + 1) * esz < 2 ^ 32 ->
  exists d' gap rest, da_set d pos v = Ok d' /\ d_size d' = pos + 1 /\
    d_mem d' = map Some l ++ gap ++ [Some v] ++ rest /\ zlen gap = pos - zlen l.
Proof.
  intros HR Hp Hb. pose proof HR as (_ & _ & Hs & _). unfold da_set. rewrite Hs.
  destruct (pos <? zlen l) eqn:E; [lia|]. unfold da_insert. rewrite Hs.
  apply Rep_RepG in HR.
  destruct (insert_out_ok (S (Z.to_nat (pos - zlen l))) d (map Some l) esz pos v HR)
    as (d' & gap & H1 & H2 & H3); try (rewrite zlen_map; lia); auto.
  rewrite zlen_map in H3.
  destruct H2 as (_ & _ & Hs2 & [rest Hm2] & _).
  exists d', gap, rest. split; [exact H1|]. split; [|split; auto].
  - rewrite Hs2, !zlen_app, zlen_map, zlen_cons, zlen_nil. lia.
  - rewrite Hm2. apps. reflexivity.
Qed.

End O.
