From Verif Require Import Base ListLemmas Float FloatProofs Dict DictSpec PDict DictProofs PDictKeys Strman StrmanSpec StrmanProofs
  Obj ObjSpec.

(** ** Order of floats *)
Lemma fval_pos m e : -149 <= e -> 0 < Zpos m * 2 ^ (e + 149).
Proof. intro H. apply Z.mul_pos_pos; [lia|apply pow_pos; lia]. Qed.

Lemma canon_lt m1 e1 m2 e2 : canon (Zpos m1) e1 -> canon (Zpos m2) e2 -> e1 < e2 ->
  Zpos m1 * 2 ^ (e1 + 149) < Zpos m2 * 2 ^ (e2 + 149).
Proof.
  intros C1 C2 He. pose proof (canon_digits _ _ C1) as (D1 & E1 & _). pose proof (canon_digits _ _ C2) as (D2 & E2 & _).
  assert (HD : Zdigits2 (Zpos m2) = 24).
  { destruct C2 as (_ & HC & _). unfold fexp, emin, femax, fprec in HC. lia. }
  pose proof (Zdigits2_bounds (Zpos m1) ltac:(lia)) as [_ B1]. pose proof (Zdigits2_bounds (Zpos m2) ltac:(lia)) as [_ B2].
  rewrite HD in B2.
  assert (H1 : Zpos m1 < 2 ^ 24).
  { eapply Z.lt_le_trans; [apply B1|]. apply Z.pow_le_mono_r; lia. }
  replace (e2 + 149) with ((e2 - e1 - 1) + 1 + (e1 + 149)) by lia.
  rewrite (pow_split (e2 - e1 - 1 + 1) (e1 + 149)) by lia. rewrite (pow_split (e2 - e1 - 1) 1) by lia.
  pose proof (pow_pos (e1 + 149) ltac:(lia)) as P1. pose proof (pow_pos (e2 - e1 - 1) ltac:(lia)) as P2.
  change (2 ^ 1) with 2.
  apply Z.lt_le_trans with (2 ^ 24 * 2 ^ (e1 + 149)).
  - apply Z.mul_lt_mono_pos_r; lia.
  - rewrite Z.mul_assoc. apply Z.mul_le_mono_nonneg_r; [lia|].
    change (2 ^ 24) with (2 ^ 23 * 2). change (2 ^ (24 - 1)) with (2 ^ 23) in B2.
    rewrite Z.mul_assoc. apply Z.mul_le_mono_nonneg_r; [lia|].
    apply Z.le_trans with (Zpos m2 * 1); [lia|]. apply Z.mul_le_mono_nonneg_l; lia.
Qed.

Lemma fval_bound s m e : canon (Zpos m) e -> - 2 ^ 300 < fval (S754_finite s m e) < 2 ^ 300.
Proof.
  intro C. pose proof (canon_digits _ _ C) as (D & E & _). pose proof (Zdigits2_bounds (Zpos m) ltac:(lia)) as [_ B].
  assert (H1 : Zpos m < 2 ^ 24).
  { eapply Z.lt_le_trans; [apply B|]. apply Z.pow_le_mono_r; lia. }
  assert (H2 : 2 ^ (e + 149) <= 2 ^ 253) by (apply Z.pow_le_mono_r; lia).
  pose proof (pow_pos (e + 149) ltac:(lia)).
  assert (H3 : Zpos m * 2 ^ (e + 149) < 2 ^ 300).
  { apply Z.lt_le_trans with (2 ^ 24 * 2 ^ 253); [|vm_compute; discriminate].
    apply Z.le_lt_trans with (Zpos m * 2 ^ 253).
    - apply Z.mul_le_mono_nonneg_l; lia.
    - apply Z.mul_lt_mono_pos_r; [apply pow_pos|]; lia. }
  assert (0 < Zpos m * 2 ^ (e + 149)) by (apply fval_pos; lia). cbn [fval]. destruct s; lia.
Qed.

Lemma compare_mul_r a b c : 0 < c -> (a * c ?= b * c) = (a ?= b).
Proof.
  intro H. destruct (Z.compare_spec a b) as [->|Hl|Hl].
  - apply Z.compare_refl.
  - apply Z.compare_lt_iff. apply Z.mul_lt_mono_pos_r; auto.
  - apply Z.compare_gt_iff. apply Z.mul_lt_mono_pos_r; auto.
Qed.

Lemma fcompare_val f g : valid_f32 f = true -> valid_f32 g = true -> is_nan f = false -> is_nan g = false ->
  SFcompare f g = Some (fval f ?= fval g).
Proof.
  assert (HF : forall m1 e1 m2 e2, canon (Zpos m1) e1 -> canon (Zpos m2) e2 ->
     (Zpos m1 * 2 ^ (e1 + 149) ?= Zpos m2 * 2 ^ (e2 + 149)) =
     match Z.compare e1 e2 with Lt => Lt | Gt => Gt | Eq => Pos.compare_cont Eq m1 m2 end).
  { intros m1 e1 m2 e2 C1 C2. destruct (Z.compare_spec e1 e2) as [->|Hl|Hl].
    - pose proof (canon_digits _ _ C2). rewrite compare_mul_r by (apply pow_pos; lia). reflexivity.
    - apply Z.compare_lt_iff. apply canon_lt; auto.
    - apply Z.compare_gt_iff. apply canon_lt; auto. }
  intros HV HW Hn Hm.
  destruct f as [s1|s1| |s1 m1 e1]; try discriminate; destruct g as [s2|s2| |s2 m2 e2]; try discriminate;
    try (apply valid_canon in HV as CV); try (apply valid_canon in HW as CW).
  - reflexivity.
  - destruct s2; reflexivity.
  - pose proof (canon_digits _ _ CW). pose proof (fval_pos m2 e2 ltac:(lia)). destruct s2; cbn [SFcompare fval]; symmetry; f_equal.
    + apply Z.compare_gt_iff. lia.
    + apply Z.compare_lt_iff. lia.
  - destruct s1; reflexivity.
  - destruct s1, s2; reflexivity.
  - pose proof (fval_bound s2 m2 e2 CW) as HB. destruct s1; cbn [SFcompare]; symmetry; f_equal; unfold fval at 1.
    + apply Z.compare_lt_iff. lia.
    + apply Z.compare_gt_iff. lia.
  - pose proof (canon_digits _ _ CV). pose proof (fval_pos m1 e1 ltac:(lia)). destruct s1; cbn [SFcompare fval]; symmetry; f_equal.
    + apply Z.compare_lt_iff. lia.
    + apply Z.compare_gt_iff. lia.
  - pose proof (fval_bound s1 m1 e1 CV) as HB. destruct s2; cbn [SFcompare]; symmetry; f_equal.
    + apply Z.compare_gt_iff. unfold fval at 1. lia.
    + apply Z.compare_lt_iff. unfold fval at 2. lia.
  - pose proof (canon_digits _ _ CV). pose proof (canon_digits _ _ CW).
    pose proof (fval_pos m1 e1 ltac:(lia)). pose proof (fval_pos m2 e2 ltac:(lia)).
    destruct s1, s2; cbn [SFcompare fval]; f_equal.
    + rewrite Z.compare_opp, (Z.compare_antisym (Zpos m1 * 2 ^ (e1 + 149))). rewrite (HF m1 e1 m2 e2); auto.
      destruct (e1 ?= e2); reflexivity.
    + symmetry. apply Z.compare_lt_iff. lia.
    + symmetry. apply Z.compare_gt_iff. lia.
    + rewrite (HF m1 e1 m2 e2); auto.
Qed.

Lemma float_cmp_val f g : valid_f32 f = true -> valid_f32 g = true -> is_nan f = false -> is_nan g = false ->
  float_cmp f g = intkeycmp (fval f) (fval g).
Proof.
  intros H1 H2 H3 H4. unfold float_cmp, flt, SFltb. rewrite !fcompare_val by auto. unfold intkeycmp.
  rewrite (Z.compare_antisym (fval f) (fval g)). unfold Z.ltb, Z.gtb. destruct (fval f ?= fval g); reflexivity.
Qed.

Lemma intkeycmp_spec a b : (intkeycmp a b < 0 <-> a < b) /\ (intkeycmp a b = 0 <-> a = b) /\ (intkeycmp a b > 0 <-> a > b).
Proof. unfold intkeycmp. destruct (a <? b) eqn:E1, (a >? b) eqn:E2; lia. Qed.

(** ** Order of strings *)
Lemma strcmp_lex s : forall t, (strcmp s t < 0 <-> lex_lt s t) /\ (strcmp s t = 0 <-> s = t) /\ (strcmp s t > 0 <-> lex_lt t s).
Proof.
  induction s as [|x s IH]; intros [|y t]; cbn [strcmp lex_lt].
  - split; [split; [lia|tauto]|split; [tauto|split; [lia|tauto]]].
  - split; [split; [tauto|lia]|split; [split; [lia|discriminate]|split; [lia|tauto]]].
  - split; [split; [lia|tauto]|split; [split; [lia|discriminate]|split; [tauto|lia]]].
  - destruct (IH t) as (I1 & I2 & I3). destruct (x <? y) eqn:E1; [|destruct (x >? y) eqn:E2].
    + split; [split; [lia|lia]|split; [split; [lia|intro H; inversion H; lia]|split; [lia|lia]]].
    + split; [split; [lia|lia]|split; [split; [lia|intro H; inversion H; lia]|split; [lia|lia]]].
    + assert (x = y) by lia. subst y. split; [|split].
      * rewrite I1. split; [auto|intros [H|[_ H]]; [lia|auto]].
      * rewrite I2. split; [congruence|intro H; inversion H; auto].
      * rewrite I3. split; [auto|intros [H|[_ H]]; [lia|auto]].
Qed.
Lemma lex_trans s : forall t u, lex_lt s t -> lex_lt t u -> lex_lt s u.
Proof.
  induction s as [|x s IH]; intros [|y t] [|z u]; cbn; try tauto.
  intros [H1|[-> H1]] [H2|[-> H2]]; [left; lia|left; auto|left; auto|right; split; eauto].
Qed.
(** A C library whose strcmp gives -1, 0, 1. *)
Lemma strcmp_sgn s : forall t, Z.sgn (strcmp s t) = strcmp s t.
Proof. induction s as [|x s IH]; intros [|y t]; cbn [strcmp]; auto. destruct (x <? y); auto. destruct (x >? y); auto. Qed.
Definition lib_with (p : f32 -> f32 -> f32) : libm := mkLibm p strcmp strcmp_sgn.
Lemma strcmp_zero s t : strcmp s t = 0 <-> s = t.
Proof. apply strcmp_lex. Qed.

(** ** Integers as floats *)
Lemma f_of_Z_exact i : Z.abs i < 2 ^ 24 ->
  valid_f32 (f_of_Z i) = true /\ is_nan (f_of_Z i) = false /\ fval (f_of_Z i) = i * 2 ^ 149.
Proof.
  intro Hi.
  assert (HP : forall s p, Zpos p < 2 ^ 24 -> exists m e, binary_round fprec femax s p 0 = S754_finite s m e /\
            canon (Zpos m) e /\ Zpos m * 2 ^ (e + 149) = Zpos p * 2 ^ 149).
  { intros s p Hp. set (d := Zdigits2 (Zpos p)). pose proof (Zdigits2_bounds (Zpos p) ltac:(lia)) as [Hd Hb]. fold d in Hd, Hb.
    assert (Hd24 : d <= 24).
    { destruct (Z_le_gt_dec d 24); auto. exfalso. assert (2 ^ 24 <= 2 ^ (d - 1)) by (apply Z.pow_le_mono_r; lia). lia. }
    assert (Hmz : 2 ^ 23 <= Zpos p * 2 ^ (24 - d) < 2 ^ 24).
    { replace 23 with ((d - 1) + (24 - d)) by lia. rewrite pow_split by lia.
      assert (HX : 2 ^ 24 = 2 ^ d * 2 ^ (24 - d)). { rewrite <- pow_split by lia. f_equal. lia. }
      rewrite HX. pose proof (pow_pos (24 - d) ltac:(lia)). split.
      - apply Z.mul_le_mono_nonneg_r; lia.
      - apply Z.mul_lt_mono_pos_r; lia. }
    assert (HC : canon (Zpos p * 2 ^ (24 - d)) (d - 24)) by (apply canon_24; auto; lia).
    exists (Z.to_pos (Zpos p * 2 ^ (24 - d))), (d - 24). split; [|split].
    - change p with (Z.to_pos (Zpos p)) at 1. apply (round_exact s (Zpos p) 0 _ (d - 24) (24 - d)); auto; lia.
    - rewrite Z2Pos.id by lia. auto.
    - rewrite Z2Pos.id by lia. rewrite <- Z.mul_assoc, <- pow_split by lia. do 2 f_equal. lia. }
  assert (HB : forall m e, canon (Zpos m) e -> forall s, valid_f32 (S754_finite s m e) = true).
  { intros m e (_ & H1 & H2) s. unfold valid_f32, valid_binary, bounded, canonical_mantissa.
    apply andb_true_iff. split; [|apply Zle_imp_le_bool; auto]. apply Zeq_is_eq_bool. exact H1. }
  unfold f_of_Z, binary_normalize. destruct i as [|p|p].
  - cbn. auto.
  - destruct (HP false p ltac:(lia)) as (m & e & -> & HC & HV). splits; auto.
  - destruct (HP true p ltac:(lia)) as (m & e & -> & HC & HV). splits; auto. cbn [fval]. rewrite HV. lia.
Qed.

Lemma f_trunc_val f : valid_f32 f = true -> finite_f32 f = true -> f_trunc f = Some (Z.quot (fval f) (2 ^ 149)).
Proof.
  intros HV HF. destruct f as [s| | |s m e]; try discriminate; [reflexivity|].
  apply valid_canon in HV. pose proof (canon_digits _ _ HV) as (_ & He & _). cbn [f_trunc fval]. f_equal.
  assert (HA : (if 0 <=? e then Zpos m * 2 ^ e else Zpos m / 2 ^ (- e)) = Z.quot (Zpos m * 2 ^ (e + 149)) (2 ^ 149)).
  { destruct (0 <=? e) eqn:E.
    - rewrite pow_split by lia. rewrite Z.mul_assoc, Z.quot_mul; [reflexivity|]. apply Z.pow_nonzero; lia.
    - assert (HX : 2 ^ 149 = 2 ^ (- e) * 2 ^ (e + 149)). { rewrite <- pow_split by lia. f_equal. lia. }
      rewrite HX. pose proof (pow_pos (- e) ltac:(lia)). pose proof (pow_pos (e + 149) ltac:(lia)).
      rewrite Z.quot_mul_cancel_r by lia. rewrite Z.quot_div_nonneg by lia. reflexivity. }
  rewrite HA. destruct s; [|reflexivity]. rewrite Z.quot_opp_l; [reflexivity|]. apply Z.pow_nonzero; lia.
Qed.

(** ** Printed numbers look like numbers *)
Definition digit (c : Z) : Prop := 48 <= c <= 57.
Lemma digits_f_head f : forall n acc, 0 <= n -> exists c r, digits_f (S f) n acc = c :: r /\ digit c.
Proof.
  induction f as [|f IH]; intros n acc Hn; cbn [digits_f].
  - destruct (n <? 10); eexists _, _; (split; [reflexivity|unfold digit; lia]).
  - destruct (n <? 10) eqn:E.
    + eexists _, _. split; [reflexivity|unfold digit; lia].
    + apply (IH (n / 10)). lia.
Qed.
Lemma digits_numlike n : 0 <= n -> numlike (digits n) = true.
Proof.
  intro H. unfold digits. destruct (digits_f_head (Z.to_nat (Z.log2 n)) n [] H) as (c & r & -> & Hd).
  cbn. unfold digit in Hd. lia.
Qed.
Lemma fmt_d_numlike z : numlike (fmt_d z) = true.
Proof. unfold fmt_d. destruct (z <? 0) eqn:E; [reflexivity|apply digits_numlike; lia]. Qed.

Lemma digits_f_len f : forall n k acc, 0 <= n < 10 ^ k -> 0 < k -> zlen (digits_f f n acc) <= k + zlen acc.
Proof.
  induction f as [|f IH]; intros n k acc Hn Hk; cbn [digits_f]; [lia|].
  destruct (n <? 10) eqn:E.
  - rewrite zlen_cons. lia.
  - assert (1 < k). { destruct (Z.eq_dec k 1); [subst; lia|lia]. }
    eapply Z.le_trans; [apply (IH (n / 10) (k - 1))|rewrite zlen_cons; lia]; [|lia].
    split; [lia|]. apply Z.div_lt_upper_bound; [lia|]. replace (10 * 10 ^ (k - 1)) with (10 ^ k); [lia|].
    replace k with (1 + (k - 1)) at 1 by lia. rewrite Z.pow_add_r by lia. reflexivity.
Qed.
Lemma digits_len n k : 0 <= n < 10 ^ k -> 0 < k -> zlen (digits n) <= k.
Proof. intros H1 H2. unfold digits. pose proof (digits_f_len (S (Z.to_nat (Z.log2 n))) n k [] H1 H2). rewrite zlen_nil in *. lia. Qed.
Lemma fmt_d_len z : int32_range z -> zlen (fmt_d z) <= 12.
Proof.
  unfold int32_range, fmt_d. intro H. destruct (z <? 0) eqn:E.
  - rewrite zlen_cons. pose proof (digits_len (- z) 11 ltac:(lia) ltac:(lia)). lia.
  - pose proof (digits_len z 11 ltac:(lia) ltac:(lia)). lia.
Qed.
Lemma div_rne_bound a b : 0 <= a -> 0 < b -> 0 <= div_rne a b <= a / b + 1.
Proof.
  intros Ha Hb. assert (0 <= a / b) by (apply Z.div_pos; lia). unfold div_rne.
  destruct (_ <? b); [lia|]. destruct (_ >? b); [lia|]. destruct (Z.even _); lia.
Qed.
Lemma fmt_f_abs_spec m e k : 0 <= m -> (if 0 <=? e then m * 2 ^ e else m / 2 ^ (- e)) < 2 ^ 32 -> k = 0 ->
  numlike (fmt_f_abs m e) = true /\ zlen (fmt_f_abs m e) <= 20.
Proof.
  intros Hm Hlt _. unfold fmt_f_abs.
  set (n := if 0 <=? e then m * 2 ^ e * 1000000 else div_rne (m * 1000000) (2 ^ (- e))).
  assert (Hn : 0 <= n <= 2 ^ 33 * 1000000).
  { unfold n. destruct (0 <=? e) eqn:E.
    - pose proof (pow_pos e ltac:(lia)). assert (0 <= m * 2 ^ e) by (apply Z.mul_nonneg_nonneg; lia). lia.
    - pose proof (pow_pos (- e) ltac:(lia)). pose proof (div_rne_bound (m * 1000000) (2 ^ (- e)) ltac:(lia) ltac:(lia)).
      split; [lia|]. set (q := 2 ^ (- e)) in *.
      assert (m * 1000000 / q <= m / q * 1000000 + 1000000).
      { apply Z.lt_succ_r. apply Z.div_lt_upper_bound; [lia|]. pose proof (Z.div_mod m q ltac:(lia)).
        pose proof (Z.mod_pos_bound m q ltac:(lia)).
        Ltac Zify.zify_post_hook ::= idtac. generalize dependent (m / q). intros. nia. }
      change (2 ^ 33) with 8589934592. change (2 ^ 32) with 4294967296 in Hlt. lia. }
  assert (Hq : 0 <= n / 1000000 < 10 ^ 10).
  { split; [apply Z.div_pos; lia|]. apply Z.div_lt_upper_bound; lia. }
  split.
  - unfold digits. destruct (digits_f_head (Z.to_nat (Z.log2 (n / 1000000))) (n / 1000000) [] ltac:(lia)) as (c & r & -> & Hd).
    cbn. unfold digit in Hd. lia.
  - rewrite zlen_app, zlen_cons, zlen_map. pose proof (digits_len _ 10 Hq ltac:(lia)). change (zlen [5; 4; 3; 2; 1; 0]) with 6. lia.
Qed.
Ltac Zify.zify_post_hook ::= Z.div_mod_to_equations.

Lemma conv_finite f u : f_to_uint32 f = Ok u -> finite_f32 f = true /\ is_nan f = false.
Proof. destruct f; cbn; try discriminate; auto. Qed.
Lemma fmt_f_spec f u : f_to_uint32 f = Ok u -> numlike (fmt_f f) = true /\ zlen (fmt_f f) <= 21.
Proof.
  destruct f as [s|s| |s m e]; try discriminate.
  - intros _. destruct s; vm_compute; split; congruence.
  - unfold f_to_uint32, f_trunc. destruct (_ && _) eqn:E; [|discriminate]. intros _. cbn [fmt_f].
    assert (HA : 0 <= (if 0 <=? e then Zpos m * 2 ^ e else Zpos m / 2 ^ (- e))).
    { destruct (0 <=? e) eqn:E2.
      - apply Z.mul_nonneg_nonneg; [lia|]. apply Z.pow_nonneg; lia.
      - apply Z.div_pos; [lia|apply pow_pos; lia]. }
    destruct (fmt_f_abs_spec (Zpos m) e 0) as [H1 H2]; try lia.
    { destruct s; lia. }
    destruct s; cbn [sign_str]; [split; [reflexivity|rewrite zlen_cons; lia]|split; [auto|lia]].
Qed.

(** ** Good classes of keys *)
Record goodclass (hf : obj -> res Z) (P : obj -> bool) (E : obj -> obj -> bool) : Prop := {
  gc_hash : forall a, P a = true -> exists h, hf a = Ok h /\ 0 <= h;
  gc_cmp : forall a b, P a = true -> P b = true -> exists c, obj_cmp a b = Ok c /\ (c = 0 <-> E a b = true);
  gc_refl : forall a, P a = true -> E a a = true;
  gc_sym : forall a b, P a = true -> P b = true -> E a b = true -> E b a = true;
  gc_trans : forall a b c, P a = true -> P b = true -> P c = true -> E a b = true -> E b c = true -> E a c = true;
  gc_eqh : forall a b, P a = true -> P b = true -> E a b = true -> hf a = hf b
}.

Definition nval (o : obj) : Z := match o with OInt i => i * 2 ^ 149 | OFloat f => fval f | _ => 0 end.
Definition isnum (o : obj) : bool := match o with OInt _ | OFloat _ => true | _ => false end.

Lemma intkeycmp_scale a b c : 0 < c -> intkeycmp (a * c) (b * c) = intkeycmp a b.
Proof. intro H. unfold intkeycmp, Z.ltb, Z.gtb. rewrite compare_mul_r by auto. reflexivity. Qed.

Lemma class_cmp_num fl sidof a b : key_class fl sidof a = true -> key_class fl sidof b = true ->
  isnum a = true -> isnum b = true -> obj_cmp a b = Ok (intkeycmp (nval a) (nval b)).
Proof.
  intros Ha Hb Na Nb. pose proof (pow_pos 149 ltac:(lia)) as HP.
  assert (HF : forall f, key_class fl sidof (OFloat f) = true -> fl = true /\ valid_f32 f = true /\ is_nan f = false).
  { intros f Hf. cbn in Hf. apply andb_true_iff in Hf as [Hf Hc]. apply andb_true_iff in Hf as [Hf Hv].
    splits; auto. destruct (f_to_uint32 f) eqn:E; try discriminate. eapply conv_finite; eauto. }
  destruct a; try discriminate; destruct b; try discriminate; cbn [obj_cmp obj_cmp_by nval]; f_equal.
  - symmetry. apply intkeycmp_scale; auto.
  - destruct (HF _ Hb) as (-> & HV & HN). cbn in Ha. destruct (f_of_Z_exact z ltac:(lia)) as (V & N & <-).
    apply float_cmp_val; auto.
  - destruct (HF _ Ha) as (-> & HV & HN). cbn in Hb. destruct (f_of_Z_exact z ltac:(lia)) as (V & N & <-).
    apply float_cmp_val; auto.
  - destruct (HF _ Ha) as (_ & HV & HN). destruct (HF _ Hb) as (_ & HV' & HN'). apply float_cmp_val; auto.
Qed.

Lemma same_key_num a b : isnum a = true -> isnum b = true -> same_key a b = (nval a =? nval b).
Proof.
  pose proof (pow_pos 149 ltac:(lia)) as HP.
  destruct a; try discriminate; destruct b; try discriminate; intros _ _; cbn [same_key nval]; auto.
  destruct (z =? z0) eqn:E1, (z * 2 ^ 149 =? z0 * 2 ^ 149) eqn:E2; auto; exfalso.
  - assert (z = z0) by lia. subst. lia.
  - assert (HZ : z * 2 ^ 149 = z0 * 2 ^ 149) by lia. apply Z.mul_reg_r in HZ; lia.
Qed.

(** Hash of numeric keys in terms of the value. *)
Lemma class_num_hash fl sidof a : key_class fl sidof a = true -> isnum a = true ->
  exists q, q = Z.quot (nval a) (2 ^ 149) /\ table_hash a = Ok (wrap32 (Z.rem q 10)) /\
    (match a with OFloat _ => 0 <= q | _ => True end).
Proof.
  pose proof (pow_pos 149 ltac:(lia)) as HP. intros Ha Na. eexists. split; [reflexivity|].
  destruct a; try discriminate; cbn [nval table_hash].
  - rewrite Z.quot_mul by lia. auto.
  - cbn in Ha. apply andb_true_iff in Ha as [Hf Hc]. apply andb_true_iff in Hf as [_ Hv].
    destruct (f_to_uint32 f) as [u| | |] eqn:E; try discriminate. destruct (conv_finite _ _ E) as [Hfin _].
    pose proof (f_trunc_val f Hv Hfin) as HT. unfold f_to_uint32 in E. rewrite HT in E.
    destruct (_ && _) eqn:E2; [|discriminate]. set (q := fval f ÷ 2 ^ 149) in *. clearbody q.
    assert (u = q) by congruence. subst u. cbn [bind]. split; [|lia]. f_equal. unfold wrap32. rewrite Z.rem_mod_nonneg by lia.
    rewrite (Z.mod_small (q mod 10)); [reflexivity|]. pose proof (Z.mod_pos_bound q 10). lia.
Qed.

Lemma good_class fl sidof : goodclass table_hash (key_class fl sidof) same_key.
Proof.
  assert (HN : forall a, key_class fl sidof a = true -> isnum a = true \/ exists i s, a = OStr i s /\ i = sidof s /\ 0 <= i < 65536 /\ numlike s = false).
  { intros a Ha. destruct a; cbn in Ha; try discriminate; auto. right. exists sid, s. splits; auto; try lia.
    destruct (numlike s); auto; cbn in Ha; lia. }
  assert (HP : forall a s, key_class fl sidof a = true -> isnum a = true -> numlike s = false -> forall i,
     (exists c, obj_cmp a (OStr i s) = Ok c /\ c <> 0) /\ (exists c, obj_cmp (OStr i s) a = Ok c /\ c <> 0)).
  { intros a s Ha Na Hs i.
    assert (HF : exists t, numlike t = true /\ obj_cmp a (OStr i s) = Ok (strcmp t s) /\ obj_cmp (OStr i s) a = Ok (strcmp s t)).
    { destruct a; try discriminate; cbn [obj_cmp obj_cmp_by].
      - exists (fmt_d z). split; [apply fmt_d_numlike|].
        assert (HR : int32_range z). { cbn in Ha. unfold int32_range. destruct fl; [|unfold int32_rangeb in Ha]; lia. }
        pose proof (fmt_d_len z HR). unfold sprintf30. destruct (zlen (fmt_d z) <? 30) eqn:E; [|lia]. cbn. auto.
      - cbn in Ha. apply andb_true_iff in Ha as [_ Hc]. destruct (f_to_uint32 f) eqn:E; try discriminate.
        destruct (fmt_f_spec f _ E) as [H1 H2]. exists (fmt_f f). split; auto.
        unfold sprintf30. destruct (zlen (fmt_f f) <? 30) eqn:E2; [|lia]. cbn. auto. }
    destruct HF as (t & Ht & -> & ->). split; eexists; (split; [reflexivity|]); intro H0; apply strcmp_zero in H0; congruence. }
  assert (HSK : forall a i s, isnum a = true -> same_key a (OStr i s) = false /\ same_key (OStr i s) a = false).
  { intros a i s Ha. destruct a; try discriminate; auto. }
  assert (HSS : forall i s j t, same_key (OStr i s) (OStr j t) = true <-> s = t).
  { intros. cbn. destruct (list_eq_dec Z.eq_dec s t); split; congruence. }
  constructor.
  - intros a Ha. destruct (HN a Ha) as [Na|(i & s & -> & _)].
    + destruct (class_num_hash fl sidof a Ha Na) as (q & _ & -> & _). eexists. split; [reflexivity|].
      unfold wrap32. apply Z.mod_pos_bound. lia.
    + cbn. eexists. split; [reflexivity|]. lia.
  - intros a b Ha Hb. destruct (HN a Ha) as [Na|(i & s & -> & Hi & _ & Hs)], (HN b Hb) as [Nb|(j & t & -> & Hj & _ & Ht)].
    + rewrite (class_cmp_num fl sidof a b) by auto. eexists. split; [reflexivity|].
      rewrite same_key_num by auto. rewrite Z.eqb_eq. apply intkeycmp_spec.
    + destruct (HP a t Ha Na Ht j) as [(c & Hc & Hn) _]. exists c. split; auto. rewrite (proj1 (HSK a j t Na)). split; [lia|discriminate].
    + destruct (HP b s Hb Nb Hs i) as [_ (c & Hc & Hn)]. exists c. split; auto. rewrite (proj2 (HSK b i s Nb)). split; [lia|discriminate].
    + exists (strcmp s t). split; [reflexivity|]. rewrite HSS. apply strcmp_zero.
  - intros a Ha. destruct (HN a Ha) as [Na|(i & s & -> & _)].
    + rewrite same_key_num by auto. apply Z.eqb_refl.
    + apply HSS. reflexivity.
  - intros a b Ha Hb HE. destruct (HN a Ha) as [Na|(i & s & -> & Hi & _ & Hs)], (HN b Hb) as [Nb|(j & t & -> & Hj & _ & Ht)].
    + rewrite same_key_num in * by auto. lia.
    + rewrite (proj1 (HSK a j t Na)) in HE. discriminate.
    + rewrite (proj2 (HSK b i s Nb)) in HE. discriminate.
    + apply HSS in HE. apply HSS. auto.
  - intros a b c Ha Hb Hc H1 H2.
    destruct (HN a Ha) as [Na|(i & s & -> & _)], (HN b Hb) as [Nb|(j & t & -> & _)], (HN c Hc) as [Nc|(k & u & -> & _)];
      try (rewrite (proj1 (HSK _ _ _ Na)) in H1; discriminate); try (rewrite (proj2 (HSK _ _ _ Nb)) in H1; discriminate);
      try (rewrite (proj1 (HSK _ _ _ Nb)) in H2; discriminate); try (rewrite (proj2 (HSK _ _ _ Nc)) in H2; discriminate).
    + rewrite same_key_num in * by auto. lia.
    + apply HSS in H1, H2. apply HSS. congruence.
  - intros a b Ha Hb HE. destruct (HN a Ha) as [Na|(i & s & -> & Hi & _ & Hs)], (HN b Hb) as [Nb|(j & t & -> & Hj & _ & Ht)].
    + rewrite same_key_num in HE by auto.
      destruct (class_num_hash fl sidof a Ha Na) as (q & Hq & -> & _), (class_num_hash fl sidof b Hb Nb) as (q' & Hq' & -> & _).
      do 3 f_equal. rewrite Hq, Hq'. f_equal. lia.
    + rewrite (proj1 (HSK a j t Na)) in HE. discriminate.
    + rewrite (proj2 (HSK b i s Nb)) in HE. discriminate.
    + apply HSS in HE. subst t. cbn. subst i j. reflexivity.
Qed.

Lemma good_vclass fl sidof : goodclass obj_hash (vkey_class fl sidof) same_key.
Proof.
  pose proof (good_class fl sidof) as G.
  assert (HV : forall a, vkey_class fl sidof a = true -> key_class fl sidof a = true).
  { intros a Ha. unfold vkey_class in Ha. apply andb_true_iff in Ha. tauto. }
  assert (HN : forall a, vkey_class fl sidof a = true -> isnum a = true ->
     exists q, q = nval a ÷ 2 ^ 149 /\ obj_hash a = Ok (uintkeyhash q)).
  { intros a Ha Na. destruct (class_num_hash fl sidof a (HV a Ha) Na) as (q & Hq & Hh & _).
    exists q. split; auto. destruct a; try discriminate.
    - cbn [obj_hash]. do 2 f_equal. rewrite Hq. cbn [nval]. rewrite Z.quot_mul; lia.
    - cbn [obj_hash]. unfold vkey_class in Ha. apply andb_true_iff in Ha as [Ha Hi]. cbn in Ha.
      apply andb_true_iff in Ha as [Ha Hu]. apply andb_true_iff in Ha as [_ Hv].
      unfold f_to_int32, f_to_uint32 in *. destruct (f_trunc f) as [z|] eqn:Et; [|discriminate].
      destruct (int32_rangeb z); [|discriminate]. cbn [bind]. do 2 f_equal. rewrite Hq. cbn [nval].
      assert (Hfin : finite_f32 f = true) by (destruct f; cbn in Et; try discriminate; auto).
      pose proof (f_trunc_val f Hv Hfin) as HT. congruence. }
  constructor.
  - intros a Ha. destruct (isnum a) eqn:Na.
    + destruct (HN a Ha Na) as (q & _ & ->). eexists. split; [reflexivity|]. unfold uintkeyhash, wrap32. apply Z.mod_pos_bound. lia.
    + pose proof (HV a Ha) as Hk. destruct a; try discriminate. cbn. eexists. split; [reflexivity|].
      clear. unfold strkeyhash. rewrite <- fold_left_rev_right. destruct (rev s); cbn; [lia|]. unfold wrap32 at 1. apply Z.mod_pos_bound. lia.
  - intros a b Ha Hb. apply G; auto.
  - intros a Ha. apply (gc_refl _ _ _ G); auto.
  - intros a b Ha Hb. apply (gc_sym _ _ _ G); auto.
  - intros a b c Ha Hb Hc. apply (gc_trans _ _ _ G); auto.
  - intros a b Ha Hb HE. pose proof (HV a Ha) as Ka. pose proof (HV b Hb) as Kb.
    destruct (isnum a) eqn:Na, (isnum b) eqn:Nb.
    + destruct (HN a Ha Na) as (q & Hq & ->), (HN b Hb Nb) as (q' & Hq' & ->). rewrite same_key_num in HE by auto.
      do 2 f_equal. rewrite Hq, Hq'. f_equal. lia.
    + destruct b; try discriminate; destruct a; discriminate.
    + destruct a; try discriminate; destruct b; discriminate.
    + destruct a; try discriminate; destruct b; try discriminate. cbn in HE.
      destruct (list_eq_dec Z.eq_dec s s0); [|discriminate]. subst. reflexivity.
Qed.

(** ** Tables over a good class are finite maps *)
Section Tables.
Variable hf : obj -> res Z.
Variables (P : obj -> bool) (E : obj -> obj -> bool).
Hypothesis G : goodclass hf P E.
Context {V : Type}.

Definition khash (k : obj) : Z := if P k then match hf k with Ok h => h | _ => 0 end else 0.
Definition kcmp (a b : obj) : Z :=
  if P a then if P b then match obj_cmp a b with Ok c => c | _ => 1 end else 1
  else if P b then 1 else 0.
Definition keqb (a b : obj) : bool := kcmp a b =? 0.

Lemma keqb_in a b : P a = true -> P b = true -> keqb a b = E a b.
Proof.
  intros Ha Hb. unfold keqb, kcmp. rewrite Ha, Hb. destruct (gc_cmp _ _ _ G a b Ha Hb) as (c & -> & HC).
  destruct (E a b); [|destruct (c =? 0) eqn:EE; auto; assert (c = 0) by lia; apply HC in H; discriminate].
  destruct HC as [_ HC]. rewrite HC; auto.
Qed.
Lemma good_k : goodkeys khash kcmp keqb.
Proof.
  assert (HM : forall a b, P a <> P b -> kcmp a b = 1) by (intros a b; unfold kcmp; destruct (P a), (P b); congruence).
  assert (HO : forall a b, P a = false -> P b = false -> kcmp a b = 0) by (intros a b Ha Hb; unfold kcmp; rewrite Ha, Hb; auto).
  split; [|split].
  - split; [|split].
    + intro a. destruct (P a) eqn:Ea; [rewrite keqb_in by auto; apply G; auto|unfold keqb; rewrite HO; auto].
    + intros a b. destruct (P a) eqn:Ea, (P b) eqn:Eb.
      * rewrite !keqb_in by auto. destruct (E a b) eqn:E1, (E b a) eqn:E2; auto.
        -- rewrite (gc_sym _ _ _ G a b) in E2; auto; discriminate.
        -- rewrite (gc_sym _ _ _ G b a) in E1; auto; discriminate.
      * unfold keqb. rewrite !HM by congruence. reflexivity.
      * unfold keqb. rewrite !HM by congruence. reflexivity.
      * unfold keqb. rewrite !HO by auto. reflexivity.
    + intros a b c H1 H2. destruct (P a) eqn:Ea, (P b) eqn:Eb, (P c) eqn:Ec;
        try (unfold keqb in H1; rewrite HM in H1 by congruence; discriminate);
        try (unfold keqb in H2; rewrite HM in H2 by congruence; discriminate).
      * rewrite keqb_in in * by auto. eapply (gc_trans _ _ _ G a b c); eauto.
      * unfold keqb. rewrite HO; auto.
  - intros a b. unfold keqb. symmetry. apply Z.eqb_eq.
  - intros a b H. destruct (P a) eqn:Ea, (P b) eqn:Eb; try (unfold keqb in H; rewrite HM in H by congruence; discriminate).
    + rewrite keqb_in in H by auto. unfold khash. rewrite Ea, Eb, (gc_eqh _ _ _ G a b) by auto. reflexivity.
    + unfold khash. rewrite Ea, Eb. reflexivity.
Qed.

Definition twf (t : pdict obj V) : Prop := zlen t = 10 /\ PWf khash keqb t /\ tab_keys P t.

Lemma tslot t k : P k = true -> zlen t = 10 -> rslot hf t k = Ok (pslot khash (V:=V) t k).
Proof.
  intros Hk Hz. unfold rslot, pslot, khash. rewrite Hk. destruct (gc_hash _ _ _ G k Hk) as (h & -> & _). reflexivity.
Qed.
Lemma kcmp_in a b : P a = true -> P b = true -> obj_cmp a b = Ok (kcmp a b).
Proof. intros Ha Hb. unfold kcmp. rewrite Ha, Hb. destruct (gc_cmp _ _ _ G a b Ha Hb) as (c & -> & _). reflexivity. Qed.
Lemma bucket_keys (t : pdict obj V) h : tab_keys P t -> Forall (fun e => P (fst e) = true) (nth h t []).
Proof.
  unfold tab_keys, pentries. rewrite !Forall_forall. intros H e He. apply H. apply in_concat.
  exists (nth h t []). split; auto. apply nth_In. destruct (Nat.lt_ge_cases h (length t)); auto.
  rewrite nth_overflow in He by auto. destruct He.
Qed.
Lemma rfind_first k l : P k = true -> Forall (fun e : obj * V => P (fst e) = true) l ->
  rfind obj_cmp k l = Ok (match find_first kcmp k l with Some e => Some (snd e) | None => None end).
Proof.
  intros Hk. induction 1 as [|e l He _ IH]; cbn; auto. rewrite kcmp_in by auto. cbn. destruct (_ =? 0); auto.
Qed.
Lemma rdel_first k l : P k = true -> Forall (fun e : obj * V => P (fst e) = true) l ->
  rdel obj_cmp k l = Ok (del_first kcmp k l).
Proof.
  intros Hk. induction 1 as [|e l He _ IH]; cbn; auto. rewrite kcmp_in by auto. cbn. destruct (_ =? 0); auto. rewrite IH. auto.
Qed.
Lemma rget_pget t k : twf t -> P k = true -> rget hf obj_cmp t k = Ok (pget khash kcmp t k).
Proof.
  intros (Hz & HW & HK) Hk. unfold rget. rewrite tslot by auto. cbn [bind]. unfold pget, pbucket.
  apply rfind_first; auto. apply bucket_keys; auto.
Qed.
Lemma rset_pset t k v : twf t -> P k = true -> rset hf obj_cmp t k v = Ok (pset khash kcmp t k v).
Proof.
  intros (Hz & HW & HK) Hk. unfold rset. rewrite tslot by auto. cbn [bind].
  rewrite rdel_first by (auto; apply bucket_keys; auto). reflexivity.
Qed.
Lemma rremove_premove t k : twf t -> P k = true -> rremove hf obj_cmp t k = Ok (premove khash kcmp t k).
Proof.
  intros (Hz & HW & HK) Hk. unfold rremove. rewrite tslot by auto. cbn [bind].
  rewrite rdel_first by (auto; apply bucket_keys; auto). reflexivity.
Qed.

Lemma in_upd {A} (l : list A) n x y : In y (upd l n x) -> y = x \/ In y l.
Proof. revert n. induction l; intros [|n]; cbn; try tauto. - intros [->|H]; auto. - intros [->|H]; auto. destruct (IHl _ H); auto. Qed.
Lemma del_first_in k l (e : obj * V) : In e (del_first kcmp k l) -> In e l.
Proof. induction l; cbn; auto. destruct (_ =? 0); cbn; auto. intros [->|H]; auto. Qed.
Lemma keys_upd (t : pdict obj V) h l : tab_keys P t -> Forall (fun e => P (fst e) = true) l -> tab_keys P (upd t h l).
Proof.
  unfold tab_keys, pentries. rewrite !Forall_forall. intros H1 H2 e He. apply in_concat in He as (b & Hb & He).
  apply in_upd in Hb as [->|Hb]; auto. apply H1. apply in_concat. eauto.
Qed.
Lemma keys_del k h (t : pdict obj V) : tab_keys P t -> Forall (fun e => P (fst e) = true) (del_first kcmp k (nth h t [])).
Proof.
  intro H. apply Forall_forall. intros e He. apply del_first_in in He. revert e He. apply Forall_forall. apply bucket_keys; auto.
Qed.

Lemma twf_new : twf (pnew 10).
Proof. split; [reflexivity|]. split; [apply (wf_new _ _ _ good_k); lia|]. unfold tab_keys. constructor. Qed.
Lemma twf_set t k v : twf t -> P k = true -> twf (pset khash kcmp t k v).
Proof.
  intros (Hz & HW & HK) Hk. split; [|split].
  - unfold pset, zlen. rewrite upd_length. auto.
  - apply (wf_set _ _ _ good_k); auto.
  - unfold pset. apply keys_upd; auto. apply Forall_app. split; [apply keys_del; auto|constructor; auto].
Qed.
Lemma twf_remove t k : twf t -> P k = true -> twf (premove khash kcmp t k).
Proof.
  intros (Hz & HW & HK) Hk. split; [|split].
  - unfold premove, zlen. rewrite upd_length. auto.
  - apply (wf_remove _ _ _ good_k); auto.
  - unfold premove. apply keys_upd; auto. apply keys_del; auto.
Qed.

(** Reading after writing. *)
Lemma tab_set_get t k v k' : twf t -> P k = true -> P k' = true ->
  exists t', rset hf obj_cmp t k v = Ok t' /\ twf t' /\
    exists r, rget hf obj_cmp t k' = Ok r /\
      rget hf obj_cmp t' k' = Ok (if E k k' then Some v else r).
Proof.
  intros HT Hk Hk'. exists (pset khash kcmp t k v). split; [apply rset_pset; auto|]. split; [apply twf_set; auto|].
  eexists. split; [apply rget_pget; auto|]. rewrite rget_pget by (auto using twf_set).
  rewrite (get_set _ _ _ good_k) by apply HT. rewrite keqb_in by auto. reflexivity.
Qed.
Lemma tab_remove_get t k k' : twf t -> P k = true -> P k' = true ->
  exists t', rremove hf obj_cmp t k = Ok t' /\ twf t' /\
    exists r, rget hf obj_cmp t k' = Ok r /\
      rget hf obj_cmp t' k' = Ok (if E k k' then None else r).
Proof.
  intros HT Hk Hk'. exists (premove khash kcmp t k). split; [apply rremove_premove; auto|]. split; [apply twf_remove; auto|].
  eexists. split; [apply rget_pget; auto|]. rewrite rget_pget by (auto using twf_remove).
  rewrite (get_remove _ _ _ good_k) by apply HT. rewrite keqb_in by auto. reflexivity.
Qed.
End Tables.
