From Verif Require Import Base ListLemmas Darray DarraySpec DarrayRun.

Section P.
Context {A : Type}.
Implicit Types (d : darray A) (l : list A).

(** Representation invariant. *)
Definition Rep (d : darray A) (l : list A) (esz : Z) : Prop :=
  d_esz d = esz /\ 0 < esz /\ d_size d = zlen l /\
  (exists rest, d_mem d = map Some l ++ rest) /\
  zlen (d_mem d) = d_cap d /\ 1 <= d_cap d /\ d_cap d * esz < 2 ^ 32.

Lemma rep_size_le_cap d l esz : Rep d l esz -> zlen l <= d_cap d.
Proof.
  intros (_ & _ & _ & [rest E] & HL & _). rewrite E, zlen_app, zlen_map in HL.
  pose proof (zlen_nonneg rest). lia.
Qed.

Lemma rep_cap32 d l esz : Rep d l esz -> d_cap d < 2 ^ 32.
Proof. intros (_ & ? & _ & _ & _ & ? & ?). nia. Qed.

Lemma wrap32_id z : 0 <= z < 2 ^ 32 -> wrap32 z = z.
Proof. intro; unfold wrap32; apply Z.mod_small; lia. Qed.

Lemma slots_of_mul c esz : 0 < esz -> 0 <= c -> slots_of (c * esz) esz = Z.to_nat c.
Proof. intros. unfold slots_of. rewrite Z.div_mul by lia. reflexivity. Qed.

Lemma grow_cap_ok fuel size cap :
  0 <= size -> 1 <= cap -> 2 * (size + 1) < 2 ^ 32 -> cap <= size + 1 ->
  (size + 1 < cap * 2 ^ Z.of_nat fuel)%Z ->
  exists c, grow_cap fuel size cap = Ok c /\ size + 1 < c /\ c <= 2 * (size + 1).
Proof.
  revert cap; induction fuel as [|f IH]; intros cap H0 H1 H2 H3 H4.
  - simpl in H4. lia.
  - cbn [grow_cap].
    assert (E : wrap32 (cap * 2) = cap * 2) by (apply wrap32_id; lia).
    rewrite E. destruct (size + 1 >=? cap * 2) eqn:G.
    + destruct (cap * 2 =? 0) eqn:G2; [lia|].
      apply IH; try lia.
      replace (Z.of_nat (S f)) with (Z.of_nat f + 1) in H4 by lia.
      rewrite Z.pow_add_r in H4 by lia. lia.
    + eexists; split; [reflexivity|]. lia.
Qed.

(** buzzdarray_makeslot at a position inside the array or at its end. *)
Lemma makeslot_ok d l esz pos :
  Rep d l esz -> 0 <= pos -> 2 * (zlen l + 1) * esz < 2 ^ 32 ->
  exists d' slot, da_makeslot d pos = Ok d' /\
    d_esz d' = esz /\ d_size d' = zlen l + 1 /\ zlen (d_mem d') = d_cap d' /\
    1 <= d_cap d' /\ d_cap d' * esz < 2 ^ 32 /\
    let i := Z.to_nat (Z.min pos (zlen l)) in
    exists rest, d_mem d' = map Some (firstn i l) ++ slot :: map Some (skipn i l) ++ rest.
Proof.
  intros HR Hp Hb.
  pose proof (rep_size_le_cap _ _ _ HR) as Hsc.
  pose proof (rep_cap32 _ _ _ HR) as Hc32.
  destruct HR as (He & He0 & Hs & [rest Hm] & HL & Hc1 & Hcb).
  pose proof (zlen_nonneg l) as Hl0.
  unfold da_makeslot. rewrite Hs, He.
  assert (Hi : (if pos <? zlen l then pos else wrap32 (zlen l)) = Z.min pos (zlen l)).
  { destruct (pos <? zlen l) eqn:E; [lia|]. rewrite wrap32_id by lia. lia. }
  rewrite Hi. set (i := Z.min pos (zlen l)) in *.
  (* growth *)
  assert (HG : exists d1 rest1, 
     (if zlen l + 1 >=? d_cap d
      then if d_cap d =? 0 then Abort
           else c <- grow_cap 33 (zlen l) (d_cap d) ;;
                m <- realloc (d_mem d) (wrap32 (c * esz)) esz ;;
                Ok (mkDa m (zlen l) c esz)
      else Ok d) = Ok d1 /\ d_esz d1 = esz /\ d_size d1 = zlen l /\
     d_mem d1 = map Some l ++ rest1 /\ zlen (d_mem d1) = d_cap d1 /\
     zlen l + 1 < d_cap d1 /\ d_cap d1 * esz < 2 ^ 32).
  { destruct (zlen l + 1 >=? d_cap d) eqn:E.
    - destruct (d_cap d =? 0) eqn:E0; [lia|].
      assert (Hb2 : 2 * (zlen l + 1) < 2 ^ 32) by nia.
      assert (Hb3 : zlen l + 1 < d_cap d * 2 ^ Z.of_nat 33).
      { change (2 ^ Z.of_nat 33) with 8589934592. lia. }
      destruct (grow_cap_ok 33 (zlen l) (d_cap d)) as (c & Hg & Hlt & Hle); try lia.
      rewrite Hg. cbn [bind].
      assert (Hcb2 : c * esz < 2 ^ 32) by nia.
      rewrite wrap32_id by nia.
      unfold realloc. destruct (c * esz =? 0) eqn:E1; [nia|].
      rewrite slots_of_mul by lia. cbn [bind].
      assert (HlenN : (length (d_mem d) <= Z.to_nat c)%nat) by (unfold zlen in *; lia).
      rewrite firstn_all2 by lia.
      eexists; exists (rest ++ repeat None (Z.to_nat c - length (d_mem d))). split; [reflexivity|].
      cbn [d_esz d_size d_mem d_cap]. repeat split; try lia.
      + rewrite Hm at 1. rewrite <- app_assoc. reflexivity.
      + rewrite zlen_app. unfold zlen at 2. rewrite repeat_length. unfold zlen. lia.
    - exists d, rest. repeat split; auto; lia. }
  destruct HG as (d1 & rest1 & HGe & He1 & Hs1 & Hm1 & HL1 & Hc11 & Hcb1).
  rewrite HGe. cbn [bind]. rewrite Hs1, He1.
  assert (Hrest1 : rest1 <> []).
  { intro; subst rest1. rewrite Hm1, app_nil_r, zlen_map in HL1. lia. }
  destruct rest1 as [|r0 rest1]; [congruence|]. clear Hrest1.
  assert (HiN : (Z.to_nat i <= length l)%nat) by (unfold i, zlen; lia).
  destruct (negb (zlen l =? 0) && (i <? zlen l)) eqn:E.
  - unfold slot_addr. rewrite He1.
    assert (H1 : (0 <=? i) && (i * esz <? 2 ^ 32) = true) by nia.
    assert (H2 : (0 <=? i + 1) && ((i + 1) * esz <? 2 ^ 32) = true) by nia.
    rewrite H1, H2. cbn [bind].
    replace (Z.to_nat (i + 1)) with (S (Z.to_nat i)) by lia.
    set (n := Z.to_nat i) in *.
    replace (Z.to_nat (zlen l - i)) with (length l - n)%nat by (unfold zlen in *; lia).
    unfold slot_move.
    assert (Hlen : (S (length l) <= length (d_mem d1))%nat).
    { rewrite Hm1, app_length, map_length. simpl; lia. }
    destruct ((S n + (length l - n) <=? length (d_mem d1)) && (n + (length l - n) <=? length (d_mem d1)))%nat eqn:E2; [|lia].
    cbn [bind].
    assert (Hn : (n < length l)%nat) by (unfold zlen in *; lia).
    eexists; exists (nth n (d_mem d1) None). split; [reflexivity|].
    cbn [d_esz d_size d_mem d_cap].
    assert (HM : firstn (S n) (d_mem d1) ++ firstn (length l - n) (skipn n (d_mem d1)) ++
                 skipn (S n + (length l - n)) (d_mem d1) =
                 map Some (firstn n l) ++ nth n (d_mem d1) None :: map Some (skipn n l) ++ rest1).
    { rewrite Hm1.
      destruct (nth_error_lt_some l n Hn) as [x Hx].
      replace (firstn (S n) (map Some l ++ r0 :: rest1)) with (map Some (firstn n l) ++ [Some x]).
      2:{ rewrite firstn_app, map_length. replace (S n - length l)%nat with 0%nat by lia.
          rewrite firstn_O, app_nil_r, firstn_map_some.
          rewrite (firstn_S_snoc _ _ _ Hx), map_app. reflexivity. }
      replace (nth n (map Some l ++ r0 :: rest1) None) with (Some x).
      2:{ rewrite app_nth1 by (rewrite map_length; lia).
          symmetry. apply nth_error_nth. rewrite nth_error_map, Hx. reflexivity. }
      rewrite <- app_assoc. cbn [app]. f_equal. f_equal. f_equal.
      - rewrite skipn_app, map_length. replace (n - length l)%nat with 0%nat by lia.
        cbn [skipn]. rewrite skipn_map, firstn_app, map_length, skipn_length.
        replace (length l - n - (length l - n))%nat with 0%nat by lia.
        rewrite firstn_O, app_nil_r. apply firstn_all2. rewrite map_length, skipn_length. lia.
      - rewrite skipn_app, map_length, skipn_all2 by (rewrite map_length; lia).
        replace (S n + (length l - n) - length l)%nat with 1%nat by lia. reflexivity. }
    repeat split; try lia.
    + rewrite HM. rewrite zlen_app, zlen_cons, zlen_app, !zlen_map.
      rewrite <- HL1, Hm1, zlen_app, zlen_map, zlen_cons.
      unfold zlen. rewrite firstn_length, skipn_length. lia.
    + exists rest1. exact HM.
  - cbn [bind]. eexists; exists r0. split; [reflexivity|]. cbn [d_esz d_size d_mem d_cap].
    repeat split; try lia.
    assert (Hil : Z.to_nat i = length l) by (unfold i, zlen in *; lia).
    exists rest1. cbv zeta. rewrite Hil, firstn_all, skipn_all. exact Hm1.
Qed.

Lemma insert_ok d l esz pos v :
  Rep d l esz -> 0 <= pos <= zlen l -> 2 * (zlen l + 1) * esz < 2 ^ 32 ->
  exists d', da_insert d pos v = Ok d' /\
             Rep d' (firstn (Z.to_nat pos) l ++ v :: skipn (Z.to_nat pos) l) esz.
Proof.
  intros HR Hp Hb.
  destruct (makeslot_ok d l esz pos HR ltac:(lia) Hb)
    as (d1 & slot & H1 & He & Hs & HL & Hc1 & Hcb & rest & Hm).
  pose proof HR as (_ & Hepos & _).
  rewrite Z.min_l in Hm by lia.
  unfold da_insert. cbn [da_insert_f]. rewrite H1. cbn [bind]. rewrite Hs.
  destruct (pos <? zlen l + 1) eqn:E; [|lia].
  unfold slot_addr. rewrite He.
  assert (HA : (0 <=? pos) && (pos * esz <? 2 ^ 32) = true) by nia.
  rewrite HA. cbn [bind]. unfold slot_write.
  set (n := Z.to_nat pos) in *.
  assert (Hn : (n <= length l)%nat) by (unfold zlen in *; lia).
  assert (HnL : (n < length (d_mem d1))%nat).
  { rewrite Hm, app_length, map_length, firstn_length. simpl. lia. }
  destruct (n <? length (d_mem d1))%nat eqn:E2; [|lia].
  eexists; split; [reflexivity|].
  assert (HM : upd (d_mem d1) n (Some v) = map Some (firstn n l ++ v :: skipn n l) ++ rest).
  { rewrite Hm. rewrite upd_app_r by (rewrite map_length, firstn_length; lia).
    rewrite map_length, firstn_length. replace (n - Nat.min n (length l))%nat with 0%nat by lia.
    cbn [upd]. rewrite map_app. cbn [map]. rewrite <- app_assoc. reflexivity. }
  repeat split; cbn [d_esz d_size d_mem d_cap]; auto.
  - rewrite Hs, zlen_app, zlen_cons. unfold zlen. rewrite firstn_length, skipn_length. lia.
  - exists rest. exact HM.
  - unfold zlen. rewrite upd_length. exact HL.
Qed.

Lemma set_ok d l esz pos v :
  Rep d l esz -> 0 <= pos < zlen l ->
  exists d', da_set d pos v = Ok d' /\
             Rep d' (firstn (Z.to_nat pos) l ++ v :: skipn (S (Z.to_nat pos)) l) esz.
Proof.
  intros HR Hp. pose proof (rep_size_le_cap _ _ _ HR) as Hsc.
  destruct HR as (He & He0 & Hs & [rest Hm] & HL & Hc1 & Hcb).
  unfold da_set. rewrite Hs. destruct (pos <? zlen l) eqn:E; [|lia].
  unfold slot_addr. rewrite He.
  assert (HA : (0 <=? pos) && (pos * esz <? 2 ^ 32) = true) by nia.
  rewrite HA. cbn [bind]. unfold slot_write.
  set (n := Z.to_nat pos) in *.
  assert (Hn : (n < length l)%nat) by (unfold zlen in *; lia).
  destruct (n <? length (d_mem d))%nat eqn:E2.
  2:{ rewrite Hm, app_length, map_length in E2. lia. }
  eexists; split; [reflexivity|].
  repeat split; cbn [d_esz d_size d_mem d_cap]; auto.
  - rewrite Hs, zlen_app, zlen_cons. unfold zlen. rewrite firstn_length, skipn_length. lia.
  - exists rest. rewrite Hm, upd_app_l by (rewrite map_length; lia).
    rewrite upd_map, upd_firstn_skipn by lia. reflexivity.
  - unfold zlen. rewrite upd_length. exact HL.
Qed.

Lemma skipn_one {B} (l : list B) n : (length l <= n)%nat -> skipn n l = [].
Proof. intro; apply skipn_all2; lia. Qed.

Lemma remove_ok d l esz pos :
  Rep d l esz -> 0 <= pos -> zlen l * esz < 2 ^ 32 ->
  exists d', da_remove d pos = Ok (d', firstn 1 (skipn (Z.to_nat pos) l)) /\
             Rep d' (firstn (Z.to_nat pos) l ++ skipn (S (Z.to_nat pos)) l) esz.
Proof.
  intros HR Hp Hb.
  pose proof (rep_size_le_cap _ _ _ HR) as Hsc.
  pose proof HR as (He & He0 & Hs & [rest Hm] & HL & Hc1 & Hcb).
  unfold da_remove. rewrite Hs. set (n := Z.to_nat pos).
  destruct (pos >=? zlen l) eqn:E.
  - exists d. assert (Hn : (length l <= n)%nat) by (unfold n, zlen in *; lia).
    rewrite (skipn_all2 l) by lia. split; [reflexivity|].
    rewrite (skipn_all2 l) by lia. rewrite app_nil_r, firstn_all2 by lia. exact HR.
  - assert (Hn : (n < length l)%nat) by (unfold n, zlen in *; lia).
    destruct (nth_error_lt_some l n Hn) as [x Hx].
    unfold slot_addr. rewrite He.
    assert (H1 : (0 <=? pos) && (pos * esz <? 2 ^ 32) = true) by nia.
    assert (H2 : (0 <=? pos + 1) && ((pos + 1) * esz <? 2 ^ 32) = true) by nia.
    rewrite H1, H2. cbn [bind].
    assert (Hrd : slot_read d n = Ok x).
    { unfold slot_read. rewrite Hm, nth_error_app1 by (rewrite map_length; lia).
      rewrite nth_error_map, Hx. reflexivity. }
    fold n. rewrite Hrd. cbn [bind].
    replace (Z.to_nat (pos + 1)) with (S n) by lia.
    replace (Z.to_nat (zlen l - pos - 1)) with (length l - S n)%nat by (unfold zlen, n in *; lia).
    unfold slot_move.
    assert (Hlen : (length l <= length (d_mem d))%nat).
    { rewrite Hm, app_length, map_length. lia. }
    destruct ((n + (length l - S n) <=? length (d_mem d)) && (S n + (length l - S n) <=? length (d_mem d)))%nat eqn:E2; [|lia].
    cbn [bind].
    set (m1 := firstn n (d_mem d) ++ firstn (length l - S n) (skipn (S n) (d_mem d)) ++
               skipn (n + (length l - S n)) (d_mem d)).
    set (l' := firstn n l ++ skipn (S n) l).
    assert (Hm1 : exists rest1, m1 = map Some l' ++ rest1).
    { unfold m1, l'. rewrite Hm.
      exists (skipn (n + (length l - S n)) (map Some l ++ rest)).
      rewrite map_app, <- app_assoc. f_equal; [|f_equal].
      - rewrite firstn_app, map_length. replace (n - length l)%nat with 0%nat by lia.
        rewrite firstn_O, app_nil_r. apply firstn_map.
      - rewrite skipn_app, map_length. replace (S n - length l)%nat with 0%nat by lia.
        change (skipn 0 rest) with rest.
        rewrite skipn_map, firstn_app, map_length, skipn_length.
        replace (length l - S n - (length l - S n))%nat with 0%nat by lia.
        rewrite firstn_O, app_nil_r. apply firstn_all2. rewrite map_length, skipn_length. lia. }
    assert (Hl1 : zlen m1 = d_cap d).
    { rewrite <- HL. unfold m1, zlen. rewrite !app_length, !firstn_length, !skipn_length. lia. }
    assert (Hl' : zlen l' = zlen l - 1).
    { unfold l', zlen. rewrite app_length, firstn_length, skipn_length. lia. }
    assert (Hdes : firstn 1 (skipn n l) = [x]).
    { rewrite (skipn_cons_nth _ _ _ Hx). reflexivity. }
    rewrite Hdes.
    destruct Hm1 as [rest1 Hm1].
    destruct ((zlen l - 1 >? 0) && (zlen l - 1 <=? d_cap d / 2)) eqn:E3.
    + set (c := d_cap d / 2) in *.
      assert (Hc : 1 <= c /\ c <= d_cap d /\ c * esz < 2 ^ 32) by (unfold c in *; nia).
      rewrite wrap32_id by nia.
      unfold realloc. destruct (c * esz =? 0) eqn:E4; [nia|]. cbn [bind].
      rewrite slots_of_mul by lia.
      eexists; split; [reflexivity|].
      repeat split; cbn [d_esz d_size d_mem d_cap]; try lia.
      * assert (Hc0 : Z.to_nat c = (length (map (@Some A) l') + (Z.to_nat c - length l'))%nat)
          by (rewrite map_length; unfold zlen in *; lia).
        assert (Hf : firstn (Z.to_nat c) m1 = map Some l' ++ firstn (Z.to_nat c - length l') rest1)
          by (rewrite Hm1, Hc0 at 1; apply firstn_app_2).
        rewrite Hf, <- app_assoc. eauto.
      * rewrite zlen_app. unfold zlen. rewrite firstn_length, repeat_length. unfold zlen in *. lia.
    + eexists; split; [reflexivity|].
      repeat split; cbn [d_esz d_size d_mem d_cap]; try lia. eauto.
Qed.

Lemma read_all_map l : read_all (map Some l) = Ok l.
Proof. induction l as [|a l IH]; simpl; [reflexivity|]. rewrite IH. reflexivity. Qed.

Lemma foreach_ok d l esz : Rep d l esz -> da_foreach d = Ok l.
Proof.
  intros (He & He0 & Hs & [rest Hm] & HL & Hc1 & Hcb).
  unfold da_foreach. rewrite Hs. replace (Z.to_nat (zlen l)) with (length l) by (unfold zlen; lia).
  rewrite Hm, app_length, map_length.
  destruct (length l <=? length l + length rest)%nat eqn:E; [|lia].
  rewrite firstn_map_app. apply read_all_map.
Qed.

Lemma clear_ok d l esz cap :
  Rep d l esz -> 0 < cap -> cap * esz < 2 ^ 32 ->
  exists d', da_clear d cap = Ok (d', l) /\ Rep d' [] esz.
Proof.
  intros HR Hc Hb. unfold da_clear. rewrite (foreach_ok _ _ _ HR). cbn [bind].
  destruct HR as (He & He0 & Hs & [rest Hm] & HL & Hc1 & Hcb). rewrite He.
  rewrite wrap32_id by nia. unfold realloc. destruct (cap * esz =? 0) eqn:E; [nia|]. cbn [bind].
  rewrite slots_of_mul by lia.
  eexists; split; [reflexivity|].
  repeat split; cbn [d_esz d_size d_mem d_cap]; try lia.
  - eexists. reflexivity.
  - rewrite zlen_app. unfold zlen. rewrite firstn_length, repeat_length. lia.
Qed.

Lemma clone_ok d l esz :
  Rep d l esz -> exists d', da_clone d = Ok d' /\ Rep d' l esz.
Proof.
  intros HR. pose proof (rep_size_le_cap _ _ _ HR) as Hsc. pose proof (rep_cap32 _ _ _ HR) as Hc32.
  destruct HR as (He & He0 & Hs & [rest Hm] & HL & Hc1 & Hcb).
  pose proof (zlen_nonneg l).
  unfold da_clone. rewrite Hs, He.
  set (c := if zlen l >? 0 then wrap32 (zlen l) else 1).
  assert (Hc : c = Z.max 1 (zlen l)).
  { unfold c. destruct (zlen l >? 0) eqn:E; [rewrite wrap32_id by lia|]; lia. }
  rewrite Hc. rewrite wrap32_id by nia. rewrite slots_of_mul by lia.
  replace (Z.to_nat (zlen l)) with (length l) by (unfold zlen; lia).
  destruct ((length l <=? Z.to_nat (Z.max 1 (zlen l))) && (length l <=? length (d_mem d)))%nat eqn:E.
  2:{ rewrite Hm, app_length, map_length in E. unfold zlen in *. lia. }
  eexists; split; [reflexivity|].
  repeat split; cbn [d_esz d_size d_mem d_cap]; try lia; try nia.
  - rewrite Hm, firstn_map_app. eauto.
  - rewrite zlen_app. unfold zlen. rewrite firstn_length, repeat_length. unfold zlen in *. lia.
Qed.

Lemma get_ok d l esz pos x :
  Rep d l esz -> 0 <= pos -> nth_error l (Z.to_nat pos) = Some x -> da_get d pos = Ok x.
Proof.
  intros (He & He0 & Hs & [rest Hm] & _) Hp Hx.
  unfold da_get. destruct (pos <? 0) eqn:E; [lia|]. unfold slot_read. rewrite Hm.
  rewrite nth_error_app1.
  - rewrite nth_error_map, Hx. reflexivity.
  - rewrite map_length. apply nth_error_Some. congruence.
Qed.

Lemma removelast_firstn_len {B} (l : list B) : removelast l = firstn (length l - 1) l.
Proof.
  induction l as [|a l IH]; [reflexivity|].
  destruct l as [|b l]; [reflexivity|].
  change (removelast (a :: b :: l)) with (a :: removelast (b :: l)). rewrite IH.
  replace (length (a :: b :: l) - 1)%nat with (S (length (b :: l) - 1))%nat by (simpl; lia).
  reflexivity.
Qed.

Lemma pop_ok d l esz :
  Rep d l esz -> zlen l * esz < 2 ^ 32 ->
  exists d', da_pop d = Ok (d', skipn (length l - 1) l) /\ Rep d' (removelast l) esz.
Proof.
  intros HR Hb. unfold da_pop. pose proof HR as (He & He0 & Hs & _).
  pose proof (rep_cap32 _ _ _ HR). pose proof (rep_size_le_cap _ _ _ HR).
  rewrite Hs. destruct l as [|a l].
  - exists d. rewrite zlen_nil. split; [|exact HR].
    unfold da_remove. rewrite Hs. reflexivity.
  - rewrite wrap32_id by (rewrite zlen_cons in *; pose proof (zlen_nonneg l); lia).
    assert (Hz : 0 <= zlen (a :: l) - 1) by (rewrite zlen_cons; pose proof (zlen_nonneg l); lia).
    destruct (remove_ok d (a :: l) esz (zlen (a :: l) - 1) HR Hz Hb) as (d' & Hr & HR').
    assert (Hn : Z.to_nat (zlen (a :: l) - 1) = (length (a :: l) - 1)%nat)
      by (unfold zlen; cbn [length]; lia).
    rewrite Hn in Hr, HR'.
    exists d'. rewrite Hr.
    split.
    + rewrite firstn_all2; [reflexivity|]. rewrite skipn_length. cbn [length]; lia.
    + rewrite skipn_all2 in HR' by (simpl; lia). rewrite app_nil_r in HR'.
      rewrite removelast_firstn_len. exact HR'.
Qed.

Lemma last_ok d l esz x t : Rep d l esz -> rev l = x :: t -> da_last d = Ok x.
Proof.
  intros HR Hr. pose proof HR as (_ & _ & Hs & _).
  assert (Hl : l = rev t ++ [x]).
  { rewrite <- (rev_involutive l), Hr. reflexivity. }
  unfold da_last. rewrite Hs. eapply get_ok; eauto.
  - rewrite Hl, zlen_app. pose proof (zlen_nonneg (rev t)). unfold zlen at 2; simpl; lia.
  - rewrite Hl. rewrite zlen_app. change (zlen [x]) with 1.
    replace (zlen (rev t) + 1 - 1) with (zlen (rev t)) by lia.
    unfold zlen. rewrite Nat2Z.id, nth_error_app2 by lia. rewrite Nat.sub_diag. reflexivity.
Qed.

Lemma da_step_refines d l esz o :
  Rep d l esz -> op_valid l o -> 2 * (zlen l + 1) * esz < 2 ^ 32 ->
  match o with OpClear cap => cap * esz < 2 ^ 32 | _ => True end ->
  exists d', da_step d o = Ok (d', snd (spec_step l o)) /\ Rep d' (fst (spec_step l o)) esz.
Proof.
  intros HR Hv Hb Hc. pose proof (zlen_nonneg l) as Hl0.
  pose proof HR as (He & He0 & Hs & _).
  assert (Hb1 : zlen l * esz < 2 ^ 32) by nia.
  destruct o; cbn [da_step spec_step fst snd op_valid] in *.
  - unfold da_push. rewrite Hs. pose proof (rep_cap32 _ _ _ HR). pose proof (rep_size_le_cap _ _ _ HR).
    rewrite wrap32_id by lia.
    destruct (insert_ok d l esz (zlen l) v HR ltac:(lia) Hb) as (d' & H1 & HR').
    rewrite H1. exists d'. split; [reflexivity|].
    replace (Z.to_nat (zlen l)) with (length l) in HR' by (unfold zlen; lia).
    rewrite firstn_all, skipn_all in HR'. exact HR'.
  - destruct (pop_ok d l esz HR Hb1) as (d' & H1 & HR'). rewrite H1. exists d'. split; auto.
  - destruct (insert_ok d l esz pos v HR Hv Hb) as (d' & H1 & HR'). rewrite H1. exists d'; split; auto.
  - destruct (set_ok d l esz pos v HR Hv) as (d' & H1 & HR'). rewrite H1. exists d'; split; auto.
  - destruct (remove_ok d l esz pos HR ltac:(lia) Hb1) as (d' & H1 & HR'). rewrite H1. exists d'; split; auto.
  - destruct (clear_ok d l esz cap HR Hv Hc) as (d' & H1 & HR'). rewrite H1. exists d'; split; auto.
  - destruct (clone_ok d l esz HR) as (d' & H1 & HR'). rewrite H1. exists d'; split; auto.
  - destruct (nth_error_lt_some l (Z.to_nat pos)) as [x Hx]; [unfold zlen in *; lia|].
    rewrite (get_ok _ _ _ _ _ HR (proj1 Hv) Hx), Hx. exists d; split; auto.
  - destruct (rev l) as [|x t] eqn:Er.
    { exfalso. apply Hv. rewrite <- (rev_involutive l), Er. reflexivity. }
    rewrite (last_ok _ _ _ _ _ HR Er). exists d; split; auto.
  - rewrite Hs. exists d; split; auto.
  - rewrite (foreach_ok _ _ _ HR). exists d; split; auto.
Qed.

Lemma da_run_refines ops : forall d l esz,
  Rep d l esz -> history_ok esz l ops ->
  exists d', da_run d ops = Ok (d', snd (spec_run l ops)) /\ Rep d' (fst (spec_run l ops)) esz.
Proof.
  induction ops as [|o ops IH]; intros d l esz HR HH; cbn [da_run spec_run history_ok] in *.
  - exists d; split; auto.
  - destruct HH as (Hv & Hb & Hc & HH).
    destruct (da_step_refines d l esz o HR Hv Hb Hc) as (d1 & H1 & HR1).
    rewrite H1. cbn [bind]. destruct (spec_step l o) as [l1 x]. cbn [fst snd] in *.
    destruct (IH d1 l1 esz HR1 HH) as (d2 & H2 & HR2). rewrite H2. cbn [bind].
    destruct (spec_run l1 ops) as [l2 xs]. cbn [fst snd] in *. exists d2. split; auto.
Qed.

Lemma new_rep cap esz :
  0 < cap -> 0 < esz -> cap * esz < 2 ^ 32 ->
  exists d, da_new cap esz = Ok d /\ Rep d [] esz.
Proof.
  intros Hc He Hb. unfold da_new. destruct (cap =? 0) eqn:E; [lia|].
  eexists; split; [reflexivity|]. repeat split; cbn [d_esz d_size d_mem d_cap]; try lia.
  - eexists; reflexivity.
  - unfold zlen. rewrite repeat_length. lia.
Qed.

(** C01: every history from a new array. *)
Theorem darray_refines_list cap esz ops :
  0 < cap -> 0 < esz -> cap * esz < 2 ^ 32 -> history_ok esz [] ops ->
  exists d0 d, da_new cap esz = Ok d0 /\
    da_run d0 ops = Ok (d, snd (spec_run [] ops)) /\
    da_foreach d = Ok (fst (spec_run [] ops)) /\
    d_size d = zlen (fst (spec_run [] ops)) /\
    d_size d <= d_cap d /\ zlen (d_mem d) = d_cap d.
Proof.
  intros Hc He Hb HH. destruct (new_rep cap esz Hc He Hb) as (d0 & Hn & HR).
  destruct (da_run_refines ops d0 [] esz HR HH) as (d & Hrun & HR').
  exists d0, d. repeat split; auto.
  - eapply foreach_ok; eauto.
  - apply HR'.
  - pose proof (rep_size_le_cap _ _ _ HR'). destruct HR' as (_ & _ & Hs & _). lia.
  - apply HR'.
Qed.

(** frombuffer also satisfies the invariant when the buffer holds at least one element. *)
Lemma frombuffer_rep buf esz :
  buf <> [] -> 0 < esz -> zlen buf * esz < 2 ^ 32 -> Rep (da_frombuffer buf esz) buf esz.
Proof.
  intros Hne He Hb. unfold da_frombuffer. repeat split; cbn [d_esz d_size d_mem d_cap]; auto.
  - exists []. rewrite app_nil_r. reflexivity.
  - rewrite zlen_map. reflexivity.
  - destruct buf; [congruence|]. rewrite zlen_cons. pose proof (zlen_nonneg buf). lia.
Qed.

(** C04 *)
Lemma find_from_spec cmp x l i :
  exists p, find_from cmp x (map Some l) i = Ok p /\ i <= p <= i + zlen l /\
    (forall j a, i <= j < p -> nth_error l (Z.to_nat (j - i)) = Some a -> cmp x a <> 0) /\
    (p < i + zlen l -> exists a, nth_error l (Z.to_nat (p - i)) = Some a /\ cmp x a = 0).
Proof.
  revert i; induction l as [|a l IH]; intros i; cbn [map find_from].
  - exists i. rewrite zlen_nil. repeat split; try lia.
  - rewrite zlen_cons. pose proof (zlen_nonneg l). destruct (cmp x a =? 0) eqn:E.
    + exists i. repeat split; try lia. intros _. exists a.
      replace (Z.to_nat (i - i)) with 0%nat by lia. split; [reflexivity|lia].
    + destruct (IH (i + 1)) as (p & Hp & Hr & Hlt & Hf). exists p.
      repeat split; try lia; auto.
      * intros j b Hj Hb. destruct (Z.eq_dec j i) as [->|Hne].
        { replace (Z.to_nat (i - i)) with 0%nat in Hb by lia. cbn in Hb. inversion Hb; subst. lia. }
        apply (Hlt j); [lia|]. replace (Z.to_nat (j - i)) with (S (Z.to_nat (j - (i + 1)))) in Hb by lia.
        exact Hb.
      * intros Hp2. destruct Hf as (b & Hb & Hc); [lia|]. exists b. split; auto.
        replace (Z.to_nat (p - i)) with (S (Z.to_nat (p - (i + 1)))) by lia. exact Hb.
Qed.

Theorem da_find_first d l esz cmp x :
  Rep d l esz ->
  exists p, da_find cmp d x = Ok p /\ 0 <= p <= zlen l /\
    (forall j a, 0 <= j < p -> nth_error l (Z.to_nat j) = Some a -> cmp x a <> 0) /\
    (p < zlen l -> exists a, nth_error l (Z.to_nat p) = Some a /\ cmp x a = 0).
Proof.
  intros (He & He0 & Hs & [rest Hm] & HL & Hc1 & Hcb).
  unfold da_find. rewrite Hs. replace (Z.to_nat (zlen l)) with (length l) by (unfold zlen; lia).
  rewrite Hm, app_length, map_length.
  destruct (length l <=? length l + length rest)%nat eqn:E; [|lia].
  rewrite firstn_map_app.
  destruct (find_from_spec cmp x l 0) as (p & Hp & Hr & Hlt & Hf).
  exists p. repeat split; try lia; auto.
  - intros j a Hj Ha. apply (Hlt j a); auto. rewrite Z.sub_0_r. exact Ha.
  - intros H. rewrite Z.sub_0_r in Hf. apply Hf; lia.
Qed.

End P.
