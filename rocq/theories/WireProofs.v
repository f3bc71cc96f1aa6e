From Verif Require Import Base ListLemmas Float Dict PDict DictSpec DictProofs PDictKeys Strman StrmanSpec StrmanProofs
  Msg MsgProofs FloatProofs Obj Wire WireSpec.

Section Ind.
Variable P : wobj -> Prop.
Hypothesis Hnil : P WNil.
Hypothesis Hint : forall z, P (WInt z).
Hypothesis Hfl : forall f, P (WFloat f).
Hypothesis Hstr : forall i s, P (WStr i s).
Hypothesis Htab : forall bs, Forall (fun e => P (fst e) /\ P (snd e)) (concat bs) -> P (WTab bs).
Hypothesis Hcl : forall n r a, P (WClos n r a).
Hypothesis Hus : P WUser.
Fixpoint wobj_ind' (w : wobj) : P w :=
  match w with
  | WNil => Hnil | WInt z => Hint z | WFloat f => Hfl f | WStr i s => Hstr i s
  | WTab bs => Htab bs
      ((fix gb (bs : list (list (wobj * wobj))) : Forall (fun e => P (fst e) /\ P (snd e)) (concat bs) :=
          match bs with
          | [] => Forall_nil _
          | b :: t =>
              (fix gc (l : list (wobj * wobj)) : Forall (fun e => P (fst e) /\ P (snd e)) (l ++ concat t) :=
                 match l with
                 | [] => gb t
                 | (k, v) :: l' => Forall_cons (k, v) (conj (wobj_ind' k) (wobj_ind' v)) (gc l')
                 end) b
          end) bs)
  | WClos n r a => Hcl n r a
  | WUser => Hus
  end.
End Ind.

(** ** String manager with room for [k] more strings *)
Definition sm_good (sm : strman) (k : Z) : Prop :=
  exists M, SInv sm M /\ SIdle sm /\ sm_live sm + k < 65534.
Lemma sm_good_mono sm k k' : k' <= k -> sm_good sm k -> sm_good sm k'.
Proof. intros H (M & H1 & H2 & H3). exists M. splits; auto. lia. Qed.

Lemma sm_good_post sm (enc post : payload) : sm_good sm (zlen (enc ++ post)) -> sm_good sm (zlen post).
Proof. apply sm_good_mono. rewrite zlen_app. pose proof (zlen_nonneg enc). lia. Qed.

Lemma register_live sm s p sm' id :
  PWf strkeyhash str_eqb (str2id sm) -> sm_register sm_fuel sm s p = Ok (sm', id) -> sm_live sm' <= sm_live sm + 1.
Proof.
  intros HW. unfold sm_register. destruct (s2i_get (str2id sm) s) eqn:E.
  - destruct p.
    + destruct (i2s_get _ _); intro H; inversion H; subst. unfold sm_live; cbn [str2id]. lia.
    + intro H; inversion H; subst. lia.
  - destruct (find_free _ _ _); cbn; intro H; inversion H; subst. unfold sm_live. cbn [str2id].
    unfold s2i_set. pose proof (size_set _ _ _ good_str (str2id sm) s (maxsid sm) HW) as HS.
    unfold psize in HS. unfold s2i_get in E. rewrite E in HS. apply Z.eq_le_incl. exact HS.
Qed.

Lemma reg_string_ok sm s k : 0 <= k -> sm_good sm (k + 1) ->
  exists id sm', reg_string sm s = Ok (WStr id s, sm') /\ 0 <= id < 65536 /\ sm_good sm' k.
Proof.
  intros Hk (M & HI & HD & HL). destruct (register_ok sm M s false HI HD ltac:(lia)) as (sm' & id & M' & E & HS & HI' & HD').
  unfold reg_string. rewrite E. cbn [bind].
  destruct HS as (id' & Hid & Hr & HS). inversion Hid; subst id'.
  assert (HM' : exists q, M' s = Some (id, q)).
  { destruct (M s) as [[i0 q]|].
    - destruct HS as [-> HS]. rewrite HS. unfold lm_set. destruct (str_dec s s); [eauto|congruence].
    - destruct HS as [_ HS]. rewrite HS. unfold lm_set. destruct (str_dec s s); [eauto|congruence]. }
  destruct HM' as (q & Hq). apply (si_i2s _ _ HI') in Hq; auto.
  exists id, sm'. unfold sm_get. rewrite Hq. cbn [fst]. splits; auto; try lia.
  exists M'. splits; auto. pose proof (register_live _ _ _ _ _ (si_wf1 _ _ HI) E). lia.
Qed.

(** ** Shape of the serialized form *)
Fixpoint ser_entries (buf : payload) (l : list (wobj * wobj)) : res payload :=
  match l with
  | [] => Ok buf
  | (k, v) :: l' => b1 <- obj_ser buf k ;; b2 <- obj_ser b1 v ;; ser_entries b2 l'
  end.
Lemma ser_entries_app l r buf : ser_entries buf (l ++ r) = b <- ser_entries buf l ;; ser_entries b r.
Proof.
  revert buf. induction l as [|[k v] l IH]; intro buf; [reflexivity|]. cbn [ser_entries app].
  destruct (obj_ser buf k); cbn [bind]; auto. destruct (obj_ser a v); cbn [bind]; auto.
Qed.
Lemma obj_ser_tab buf bs :
  obj_ser buf (WTab bs) = ser_entries (ser_u8 (ser_u8 buf T_TABLE) (psize bs)) (concat bs).
Proof.
  cbn [obj_ser wtype]. generalize (ser_u8 (ser_u8 buf T_TABLE) (psize bs)). clear buf.
  induction bs as [|b t IH]; intro buf; [reflexivity|]. cbn [concat]. rewrite ser_entries_app.
  assert (HE : forall l buf, (fix go_chain (l : list (wobj * wobj)) (buf : payload) : res payload :=
                        match l with
                        | [] => Ok buf
                        | (k, v) :: l' =>
                            b1 <- obj_ser buf k ;; b2 <- obj_ser b1 v ;; go_chain l' b2
                        end) l buf = ser_entries buf l).
  { clear. induction l as [|[k v] l IH]; intro buf; [reflexivity|]. cbn [ser_entries].
    destruct (obj_ser buf k); cbn [bind]; auto. destruct (obj_ser a v); cbn [bind]; auto. }
  rewrite HE. destruct (ser_entries buf b); cbn [bind]; auto.
Qed.

(** The loop over the entries of a received table. *)
Definition de_entries (f : nat) (buf : payload) :=
  fix go (n : nat) (t : pdict wobj wobj) (p : Z) (sm : strman) {struct n}
    : res (option (wobj * Z) * strman) :=
    match n with
    | O => Ok (Some (WTab t, p), sm)
    | S n' =>
        '(rk, sm1) <- obj_deser f buf p sm ;;
        match rk with
        | None => Ok (None, sm1)
        | Some (k, p1) =>
            '(rv, sm2) <- obj_deser f buf p1 sm1 ;;
            match rv with
            | None => Ok (None, sm2)
            | Some (v, p2) => t' <- rset whash wcmp t k v ;; go n' t' p2 sm2
            end
        end
    end.
Lemma obj_deser_tab f buf pos sm p : de_u8 buf pos = Ok (Some (T_TABLE, p)) ->
  obj_deser (S f) buf pos sm =
  (r <- de_u8 buf p ;;
   match r with
   | None => Ok (None, sm)
   | Some (size, p') => de_entries f buf (Z.to_nat size) (pnew 10) p' sm
   end).
Proof. intro H. cbn [obj_deser]. rewrite H. reflexivity. Qed.

(** ** Building the received table *)
Definition wslot (k : wobj) : nat := match whash k with Ok h => Z.to_nat (h mod 10) | _ => O end.
Definition TInv (t : pdict wobj wobj) (done : list (wobj * wobj)) : Prop :=
  length t = 10%nat /\ forall h, (h < 10)%nat -> nth h t [] = filter (fun e => Nat.eqb (wslot (fst e)) h) done.

Lemma rdel_none {K V} (cmpf : K -> K -> res Z) k (l : list (K * V)) :
  Forall (fun e => exists c, cmpf k (fst e) = Ok c /\ c <> 0) l -> rdel cmpf k l = Ok l.
Proof.
  induction 1 as [|e l (c & Hc & Hn) _ IH]; [reflexivity|]. cbn. rewrite Hc. cbn [bind].
  destruct (c =? 0) eqn:E; [lia|]. rewrite IH. reflexivity.
Qed.
Lemma nth_upd_same {A} (l : list A) n x d : (n < length l)%nat -> nth n (upd l n x) d = x.
Proof. revert n. induction l; intros [|n] H; cbn in *; try lia; auto. apply IHl. lia. Qed.
Lemma nth_upd_other {A} (l : list A) n m x d : n <> m -> nth m (upd l n x) d = nth m l d.
Proof. revert n m. induction l; intros [|n] [|m] H; cbn in *; auto; try congruence. Qed.

Lemma concat_upd_snoc {A} (t : list (list A)) h x : (h < length t)%nat ->
  Permutation (concat (upd t h (nth h t [] ++ [x]))) (concat t ++ [x]).
Proof.
  revert h. induction t as [|b t IH]; intros [|h] H; cbn in *; try lia.
  - rewrite <- !app_assoc. apply Permutation_app_head. apply Permutation_app_comm.
  - rewrite <- app_assoc. apply Permutation_app_head. apply IH. lia.
Qed.

Lemma rset_TInv t done k v h : TInv t done -> whash k = Ok h -> Forall (fun e => kdiff k (fst e)) done ->
  exists t', rset whash wcmp t k v = Ok t' /\ TInv t' (done ++ [(k, v)]) /\
    Permutation (concat t') (concat t ++ [(k, v)]).
Proof.
  intros [HL HB] Hh HD. unfold rset, rslot. rewrite Hh. cbn [bind].
  assert (Hz : zlen t = 10) by (unfold zlen; lia). rewrite Hz.
  set (i := Z.to_nat (h mod 10)). assert (Hi : (i < 10)%nat) by (unfold i; lia).
  rewrite rdel_none.
  2:{ rewrite HB by auto. apply Forall_forall. intros e He. apply filter_In in He as [He _].
      rewrite Forall_forall in HD. exact (HD _ He). }
  cbn [bind]. eexists. split; [reflexivity|]. split; [split|].
  - rewrite upd_length. auto.
  - intros j Hj. rewrite filter_app. cbn [filter fst].
    assert (Hw : wslot k = i) by (unfold wslot; rewrite Hh; reflexivity). rewrite Hw.
    destruct (Nat.eqb i j) eqn:E.
    + apply Nat.eqb_eq in E. subst j. rewrite nth_upd_same by lia. rewrite HB by auto. reflexivity.
    + apply Nat.eqb_neq in E. rewrite nth_upd_other by auto. rewrite HB by auto. rewrite app_nil_r. reflexivity.
  - apply concat_upd_snoc. lia.
Qed.

(** Lookups in the table built: every entry is found. *)
Lemma keys_distinct_app l r : keys_distinct (l ++ r) ->
  keys_distinct l /\ keys_distinct r /\ Forall (fun e' => Forall (fun e => kdiff (fst e') (fst e)) l) r.
Proof.
  induction l as [|e l IH]; cbn; intro H.
  - splits; auto. apply Forall_forall. constructor.
  - destruct H as [H1 H2]. destruct (IH H2) as (A & B & C). apply Forall_app in H1 as [H1 H1']. splits; auto.
    rewrite Forall_forall in *. intros e' He'. constructor; auto.
Qed.

Lemma rfind_split {K V} (cmpf : K -> K -> res Z) k v (l r : list (K * V)) c0 :
  Forall (fun e => exists c, cmpf k (fst e) = Ok c /\ c <> 0) l -> cmpf k k = Ok c0 -> c0 = 0 ->
  rfind cmpf k (l ++ (k, v) :: r) = Ok (Some v).
Proof.
  intros HF Hk H0. induction HF as [|e l (c & Hc & Hn) _ IH]; cbn.
  - rewrite Hk. cbn. subst c0. reflexivity.
  - rewrite Hc. cbn. destruct (c =? 0) eqn:E; [lia|]. auto.
Qed.

Lemma filter_split {A} (f : A -> bool) l1 x l2 : f x = true ->
  filter f (l1 ++ x :: l2) = filter f l1 ++ x :: filter f l2.
Proof. intro H. rewrite filter_app. cbn. rewrite H. reflexivity. Qed.

Lemma rget_TInv t done k v h : TInv t done -> keys_distinct done -> In (k, v) done -> whash k = Ok h ->
  wcmp k k = Ok 0 -> rget whash wcmp t k = Ok (Some v).
Proof.
  intros [HL HB] HD Hin Hh Hr. apply in_split in Hin as (l1 & l2 & ->).
  unfold rget, rslot. rewrite Hh. cbn [bind].
  assert (Hz : zlen t = 10) by (unfold zlen; lia). rewrite Hz.
  rewrite HB by lia. rewrite filter_split.
  2:{ apply Nat.eqb_eq. unfold wslot. cbn [fst]. rewrite Hh. reflexivity. }
  eapply rfind_split; eauto.
  apply keys_distinct_app in HD as (_ & _ & HD). inversion HD as [|? ? H1 H2]; subst.
  rewrite Forall_forall in *. intros e He. apply filter_In in He as [He _]. exact (H1 _ He).
Qed.

(** ** Keys across robots *)
Lemma wkey_weq k k' : wkey_ok k -> weq k k' ->
  wkey_ok k' /\ (exists h, whash k' = Ok h) /\
  (forall e e', wkey_ok e -> weq e e' -> wcmp k' e' = wcmp k e).
Proof.
  intros HK HE.
  assert (HS : forall a a', wkey_ok a -> weq a a' ->
     match a with WStr _ s => exists j, a' = WStr j s | _ => a' = a end).
  { intros a a' Ha HW. inversion HW; subst; cbn in Ha; try tauto; eauto.
    destruct Ha as [_ Ha]. destruct s; [congruence|reflexivity]. }
  pose proof (HS _ _ HK HE) as HKE. splits.
  - destruct k; cbn in HK; try tauto; [subst k'; exact HK|subst k'; exact HK|destruct HKE as (j & ->); exact I].
  - destruct k; cbn in HK; try tauto.
    + subst k'. unfold whash. cbn. eauto.
    + subst k'. unfold whash. cbn. destruct HK as ((u & Hu) & _). rewrite Hu. cbn. eauto.
    + destruct HKE as (j & ->). unfold whash. cbn. eauto.
  - intros e e' He HWe. pose proof (HS _ _ He HWe) as HEE.
    destruct k; cbn in HK; try tauto; destruct e; cbn in He; try tauto;
      try (destruct HKE as (j & ->)); try (destruct HEE as (j' & ->)); subst; reflexivity.
Qed.

Lemma intkeycmp_refl z : intkeycmp z z = 0.
Proof. unfold intkeycmp. rewrite Z.ltb_irrefl. destruct (z >? z) eqn:E; lia. Qed.
Lemma strcmp_refl s : strcmp s s = 0.
Proof. induction s; cbn; auto. rewrite Z.ltb_irrefl. destruct (a >? a) eqn:E; [lia|auto]. Qed.
Lemma float_cmp_refl f : float_cmp f f = 0.
Proof.
  unfold float_cmp, flt, SFltb, SFcompare. destruct f as [[]|[]| |[] m e]; auto;
    rewrite ?Z.compare_refl, ?Pcompare_refl; reflexivity.
Qed.
Lemma wcmp_refl k : wkey_ok k -> wcmp k k = Ok 0.
Proof.
  destruct k; cbn; try tauto; intro H; unfold wcmp; cbn.
  - rewrite intkeycmp_refl. reflexivity.
  - rewrite float_cmp_refl. reflexivity.
  - rewrite strcmp_refl. reflexivity.
Qed.

(** ** The round trip *)
Definition RT (w : wobj) : Prop :=
  wok w -> exists enc, 0 < zlen enc /\ (forall pre, obj_ser pre w = Ok (pre ++ enc)) /\
  forall pre post fuel sm,
    zlen (pre ++ enc ++ post) < 2 ^ 32 -> zlen enc < Z.of_nat fuel -> sm_good sm (zlen (enc ++ post)) ->
    exists w' sm', obj_deser fuel (pre ++ enc ++ post) (zlen pre) sm = Ok (Some (w', zlen pre + zlen enc), sm') /\
      weq w w' /\ sm_good sm' (zlen post).

(** The type byte. *)
Lemma type_byte ty pre rest : 0 <= ty < 256 ->
  ser_u8 pre ty = pre ++ [ty] /\ de_u8 (pre ++ (ty :: rest)) (zlen pre) = Ok (Some (ty, zlen pre + 1)).
Proof. intro H. apply (u8_roundtrip pre rest ty). lia. Qed.

Lemma ser_float_any f : valid_f32 f = true -> finite_f32 f = true ->
  exists enc, zlen enc = 8 /\ (forall pre, ser_float pre f = Ok (pre ++ enc)) /\
    forall pre post, de_float (pre ++ enc ++ post) (zlen pre) = Ok (Some (canon_zero f, zlen pre + 8)).
Proof.
  intros HV HF. destruct (float_roundtrip [] [] f HV HF) as (enc & H1 & H2 & _).
  exists enc. assert (HA : forall pre, ser_float pre f = Ok (pre ++ enc)).
  { intro pre. unfold ser_float in *. destruct (float_mant_exp f) as [[m e]| | |]; try discriminate. cbn [bind] in *.
    rewrite !ser_u32_any in *. inversion H1. cbn [app]. rewrite <- !app_assoc. reflexivity. }
  splits; auto. intros pre post. destruct (float_roundtrip pre post f HV HF) as (enc' & H3 & _ & H4).
  rewrite HA in H3. inversion H3 as [H5]. apply app_inv_head in H5. subst enc'. exact H4.
Qed.

Section Step.
Variables (pre rest : payload).
Lemma deser_nil f sm : obj_deser (S f) (pre ++ (T_NIL :: rest)) (zlen pre) sm = Ok (Some (WNil, zlen pre + 1), sm).
Proof. cbn [obj_deser]. rewrite (proj2 (type_byte T_NIL pre rest ltac:(cbv; split; congruence))). reflexivity. Qed.
End Step.

Lemma split1 (pre : payload) ty rest : pre ++ ty :: rest = (pre ++ [ty]) ++ rest.
Proof. rewrite <- app_assoc. reflexivity. Qed.
Lemma zlen_snoc (pre : payload) ty : zlen (pre ++ [ty]) = zlen pre + 1.
Proof. rewrite zlen_app. reflexivity. Qed.

Lemma entries_rt l : Forall (fun e => RT (fst e) /\ RT (snd e)) l ->
  Forall (fun e => wok (fst e) /\ wkey_ok (fst e) /\ wok (snd e)) l ->
  exists enc, 2 * zlen l <= zlen enc /\ (forall pre, ser_entries pre l = Ok (pre ++ enc)) /\
  forall prev done t pre post f sm,
    keys_distinct (prev ++ l) ->
    Forall (fun e => wkey_ok (fst e)) prev ->
    Forall2 (fun e e' => weq (fst e) (fst e') /\ weq (snd e) (snd e')) prev done ->
    TInv t done -> Permutation (concat t) done ->
    zlen (pre ++ enc ++ post) < 2 ^ 32 -> zlen enc < Z.of_nat f -> sm_good sm (zlen (enc ++ post)) ->
    exists t' l' sm', de_entries f (pre ++ enc ++ post) (length l) t (zlen pre) sm =
        Ok (Some (WTab t', zlen pre + zlen enc), sm') /\
      Forall2 (fun e e' => weq (fst e) (fst e') /\ weq (snd e) (snd e')) l l' /\
      TInv t' (done ++ l') /\ Permutation (concat t') (done ++ l') /\ sm_good sm' (zlen post).
Proof.
  induction 1 as [|[k v] l [HRk HRv] _ IH]; intros HO.
  - exists []. split; [reflexivity|]. split; [intro; rewrite app_nil_r; reflexivity|].
    intros prev done t pre post f sm _ _ _ HT HP _ _ HS. exists t, [], sm. cbn [length de_entries app] in *.
    rewrite app_nil_r. splits; auto. do 4 f_equal. cbn. lia.
  - inversion HO as [|? ? (Hwk & Hkk & Hwv) HO']; subst. cbn [fst snd] in *.
    destruct (HRk Hwk) as (ek & Lk & Sk & Dk). destruct (HRv Hwv) as (ev & Lv & Sv & Dv).
    destruct (IH HO') as (enc & Le & Se & De). exists (ek ++ ev ++ enc).
    split; [rewrite zlen_cons, !zlen_app; lia|]. split.
    { intro pre. cbn [ser_entries]. rewrite Sk. cbn [bind]. rewrite Sv. cbn [bind]. rewrite Se. rewrite <- !app_assoc. reflexivity. }
    intros prev done t pre post f sm HD HKp HF2 HT HP Hlt Hf Hsm.
    rewrite !zlen_app in Hf. pose proof (zlen_nonneg enc). pose proof (zlen_nonneg post).
    assert (Hf0 : exists f', f = S f') by (destruct f; [lia|eauto]).
    cbn [length]. unfold de_entries; fold de_entries.
    rewrite <- !app_assoc in *.
    destruct (Dk pre (ev ++ enc ++ post) f sm) as (k' & sm1 & E1 & Wk & G1); auto; try lia.
    rewrite E1. cbn [bind].
    rewrite app_assoc. replace (zlen pre + zlen ek) with (zlen (pre ++ ek)) by (rewrite zlen_app; lia).
    destruct (Dv (pre ++ ek) (enc ++ post) f sm1) as (v' & sm2 & E2 & Wv & G2); auto; try lia.
    { rewrite <- app_assoc. auto. }
    rewrite E2. cbn [bind].
    apply keys_distinct_app in HD as HD3. destruct HD3 as (_ & _ & HX). inversion HX as [|? ? HX1 HX2]; subst. cbn [fst] in HX1.
    destruct (wkey_weq k k' Hkk Wk) as (Hkk' & (h & Hh) & HC).
    destruct (rset_TInv t done k' v' h HT Hh) as (t1 & E3 & HT1 & HP1).
    { clear - HX1 HF2 HC HKp. induction HF2 as [|e e' l1 l2 [He1 _] _ IH]; constructor.
      - inversion HX1 as [|? ? (c & Hc & Hn) _]; subst. inversion HKp; subst. exists c. rewrite (HC _ _ H1 He1). auto.
      - inversion HX1; inversion HKp; auto. }
    rewrite E3. cbn [bind].
    rewrite app_assoc. replace (zlen (pre ++ ek) + zlen ev) with (zlen ((pre ++ ek) ++ ev)) by (rewrite (zlen_app (pre ++ ek)); lia).
    destruct (De (prev ++ [(k, v)]) (done ++ [(k', v')]) t1 ((pre ++ ek) ++ ev) post f sm2) as (t' & l' & sm' & E4 & W4 & T4 & P4 & G4); auto; try lia.
    { rewrite <- app_assoc. exact HD. }
    { apply Forall_app. auto. }
    { apply Forall2_app; auto. }
    { rewrite HP1. apply Permutation_app_tail. auto. }
    { rewrite <- !app_assoc. auto. }
    exists t', ((k', v') :: l'), sm'. splits.
    + fold (de_entries f (((pre ++ ek) ++ ev) ++ enc ++ post)). rewrite E4. do 3 f_equal. f_equal. rewrite !zlen_app. lia.
    + constructor; auto.
    + rewrite <- app_assoc in T4. exact T4.
    + rewrite <- app_assoc in P4. exact P4.
    + auto.
Qed.

Lemma TInv_new : TInv (pnew 10) [] /\ Permutation (concat (pnew (K:=wobj) (V:=wobj) 10)) [].
Proof.
  split; [|reflexivity]. split; [reflexivity|]. intros h Hh. cbn. do 10 (destruct h as [|h]; [reflexivity|]). lia.
Qed.

Theorem roundtrip w : RT w.
Proof.
  induction w using wobj_ind'; intro HW; inversion HW; subst; clear HW.
  - exists [T_NIL]. split; [reflexivity|]. split; [intro; reflexivity|].
    intros pre post fuel sm Hlt Hf Hsm. destruct fuel as [|f]; [cbn in Hf; lia|].
    exists WNil, sm. split; [apply deser_nil|]. split; [constructor|].
    exact (sm_good_post _ _ _ Hsm).
  - exists (T_INT :: enc32 (wrap32 z)). split; [reflexivity|]. split.
    { intro pre. cbn [obj_ser wtype]. rewrite ser_u32_any. rewrite (proj1 (type_byte T_INT pre [] ltac:(cbv; split; congruence))).
      rewrite <- app_assoc. reflexivity. }
    intros pre post fuel sm Hlt Hf Hsm. destruct fuel as [|f]; [cbn in Hf; lia|].
    exists (WInt z), sm. split; [|split; [constructor|exact (sm_good_post _ _ _ Hsm)]].
    cbn [obj_deser]. cbn [app]. rewrite (proj2 (type_byte T_INT pre _ ltac:(cbv; split; congruence))). cbn [bind].
    change (T_INT =? T_NIL) with false. change (T_INT =? T_INT) with true. cbv iota.
    rewrite split1. rewrite <- (zlen_snoc pre T_INT). rewrite de_u32_enc by apply wrap32_rng. cbn [bind].
    rewrite sign32_wrap by auto. rewrite zlen_snoc. do 4 f_equal. cbn. lia.
  - destruct (ser_float_any f H0 H1) as (enc & L & S & D). exists (T_FLOAT :: enc).
    split; [rewrite zlen_cons; lia|]. split.
    { intro pre. cbn [obj_ser wtype]. rewrite (proj1 (type_byte T_FLOAT pre [] ltac:(cbv; split; congruence))).
      rewrite S, <- app_assoc. reflexivity. }
    intros pre post fuel sm Hlt Hf Hsm. destruct fuel as [|g]; [pose proof (zlen_nonneg (T_FLOAT :: enc)); lia|].
    exists (WFloat (canon_zero f)), sm.
    split; [|split; [|exact (sm_good_post _ _ _ Hsm)]].
    2:{ destruct f; cbn; constructor; congruence. }
    cbn [obj_deser]. cbn [app]. rewrite (proj2 (type_byte T_FLOAT pre _ ltac:(cbv; split; congruence))). cbn [bind].
    change (T_FLOAT =? T_NIL) with false. change (T_FLOAT =? T_INT) with false. change (T_FLOAT =? T_FLOAT) with true. cbv iota.
    rewrite split1. rewrite <- (zlen_snoc pre T_FLOAT). rewrite D. cbn [bind]. rewrite zlen_snoc, zlen_cons. do 4 f_equal. lia.
  - set (enc := enc16 (zlen s) ++ s).
    assert (HS : forall pre, ser_string pre s = pre ++ enc).
    { intro pre. unfold ser_string, enc. rewrite ser_u16_enc by (pose proof (zlen_nonneg s); lia). rewrite app_assoc. reflexivity. }
    assert (HL : zlen enc = zlen s + 2). { unfold enc. rewrite zlen_app. change (zlen (enc16 (zlen s))) with 2. lia. }
    exists (T_STRING :: enc). pose proof (zlen_nonneg s). split; [rewrite zlen_cons; lia|]. split.
    { intro pre. cbn [obj_ser wtype]. rewrite (proj1 (type_byte T_STRING pre [] ltac:(cbv; split; congruence))).
      rewrite HS, <- app_assoc. reflexivity. }
    intros pre post fuel sm Hlt Hf Hsm. destruct fuel as [|g]; [pose proof (zlen_nonneg (T_STRING :: enc)); lia|].
    rewrite !zlen_app, zlen_cons, HL in Hlt.
    destruct (string_roundtrip (pre ++ [T_STRING]) post s H1 H2) as (enc' & E1 & E2 & E3).
    { rewrite zlen_snoc. lia. }
    rewrite HS in E1. apply app_inv_head in E1. subst enc'.
    rewrite zlen_app, zlen_cons, HL in Hsm. pose proof (zlen_nonneg post).
    destruct (reg_string_ok sm s (zlen post)) as (id & sm' & E4 & Hid & G); [lia|eapply sm_good_mono; [|exact Hsm]; lia|].
    exists (WStr id s), sm'. split; [|split; [constructor|auto]].
    cbn [obj_deser]. cbn [app]. rewrite (proj2 (type_byte T_STRING pre _ ltac:(cbv; split; congruence))). cbn [bind].
    change (T_STRING =? T_NIL) with false. change (T_STRING =? T_INT) with false.
    change (T_STRING =? T_FLOAT) with false. change (T_STRING =? T_STRING) with true. cbv iota.
    rewrite split1. rewrite <- (zlen_snoc pre T_STRING). rewrite E3. cbn [bind]. rewrite E4. cbn [bind].
    rewrite zlen_snoc, zlen_cons. do 4 f_equal. lia.
  - destruct (entries_rt (concat bs) H H2) as (enc & L & S & D).
    exists (T_TABLE :: zlen (concat bs) :: enc). pose proof (zlen_nonneg enc). pose proof (zlen_nonneg (concat bs)).
    split; [rewrite !zlen_cons; lia|]. split.
    { intro pre. rewrite obj_ser_tab. rewrite (proj1 (type_byte T_TABLE pre [] ltac:(cbv; split; congruence))).
      rewrite (proj1 (type_byte (psize bs) (pre ++ [T_TABLE]) [] ltac:(unfold psize, pentries; lia))).
      rewrite S, <- !app_assoc. reflexivity. }
    intros pre post fuel sm Hlt Hf Hsm. rewrite !zlen_cons in Hf. destruct fuel as [|f]; [lia|].
    destruct TInv_new as [T0 P0].
    destruct (D [] [] (pnew 10) ((pre ++ [T_TABLE]) ++ [zlen (concat bs)]) post f sm) as (t' & l' & sm' & E & W & T & P & G); auto; try lia.
    { rewrite <- !app_assoc. cbn [app] in *. exact Hlt. }
    { eapply sm_good_mono; [|exact Hsm]. cbn [app]. rewrite !zlen_cons. lia. }
    exists (WTab t'), sm'. split; [|split; auto].
    + rewrite (obj_deser_tab f _ _ sm (zlen pre + 1)).
      2:{ cbn [app]. apply type_byte. cbv; split; congruence. }
      cbn [app]. rewrite split1. rewrite <- (zlen_snoc pre T_TABLE).
      rewrite (proj2 (type_byte (zlen (concat bs)) (pre ++ [T_TABLE]) _ ltac:(lia))). cbn [bind].
      rewrite split1. rewrite <- (zlen_snoc (pre ++ [T_TABLE]) (zlen (concat bs))).
      replace (Z.to_nat (zlen (concat bs))) with (length (concat bs)) by (unfold zlen; lia). rewrite E.
      do 4 f_equal. rewrite !zlen_snoc, !zlen_cons. lia.
    + apply (weq_tab bs t' l'); auto. intros k v Hin.
      assert (HKD : keys_distinct l' /\ Forall (fun e => wkey_ok (fst e)) l').
      { clear - W H2 H3. cbn [app] in *. induction W as [|e e' l1 l2 [W1 W2] W IH]; [split; [exact I|constructor]|].
        inversion H2 as [|? ? (_ & K1 & _) H2']; subst. cbn in H3. destruct H3 as [H3 H3'].
        destruct (IH H2' H3') as [I1 I2]. destruct (wkey_weq _ _ K1 W1) as (K1' & _ & _). split; [split; auto|constructor; auto].
        clear - H3 W H2' W1 K1. induction W as [|a a' l1 l2 [Wa _] _ IH]; constructor.
        - inversion H3 as [|? ? (c & Hc & Hn) _]; subst. inversion H2' as [|? ? (_ & Ka & _) _]; subst.
          destruct (wkey_weq _ _ Ka Wa) as (_ & _ & HC). exists c. rewrite (HC _ _ K1 W1). auto.
        - inversion H3; inversion H2'; subst; apply IH; auto. }
      destruct HKD as [HKD HKF]. cbn [app] in T. rewrite Forall_forall in HKF. pose proof (HKF _ Hin) as HKk. cbn [fst] in HKk.
      assert (HH : exists h, whash k = Ok h).
      { destruct k; cbn in HKk; try tauto; unfold whash; cbn; eauto. destruct HKk as ((u & Hu) & _). rewrite Hu. cbn. eauto. }
      destruct HH as (h & Hh). eapply rget_TInv; eauto. apply wcmp_refl; auto.
  - exists (T_CLOSURE :: n :: enc32 (wrap32 r)). split; [reflexivity|]. split.
    { intro pre. cbn [obj_ser wtype]. change (1 =? 1) with true. cbv iota. rewrite ser_u32_any.
      rewrite (proj1 (type_byte T_CLOSURE pre [] ltac:(cbv; split; congruence))).
      rewrite (proj1 (type_byte n (pre ++ [T_CLOSURE]) [] ltac:(lia))).
      rewrite <- !app_assoc. reflexivity. }
    intros pre post fuel sm Hlt Hf Hsm. destruct fuel as [|f]; [cbn in Hf; lia|].
    exists (WClos n r 1), sm. split; [|split; [constructor|exact (sm_good_post _ _ _ Hsm)]].
    cbn [obj_deser]. cbn [app]. rewrite (proj2 (type_byte T_CLOSURE pre _ ltac:(cbv; split; congruence))). cbn [bind].
    change (T_CLOSURE =? T_NIL) with false. change (T_CLOSURE =? T_INT) with false. change (T_CLOSURE =? T_FLOAT) with false.
    change (T_CLOSURE =? T_STRING) with false. change (T_CLOSURE =? T_TABLE) with false. change (T_CLOSURE =? T_CLOSURE) with true. cbv iota.
    rewrite split1. rewrite <- (zlen_snoc pre T_CLOSURE).
    rewrite (proj2 (type_byte n (pre ++ [T_CLOSURE]) _ ltac:(lia))). cbn [bind].
    rewrite split1. rewrite <- (zlen_snoc (pre ++ [T_CLOSURE]) n). rewrite de_u32_enc by apply wrap32_rng. cbn [bind].
    rewrite sign32_wrap by auto. rewrite !zlen_snoc. do 4 f_equal. cbn. lia.
Qed.
