(** Conversion of integers to floats rounds to a nearest float. *)
From Verif Require Import Base ListLemmas Float FloatProofs Obj ObjSpec ObjProofs.

(** ** Shifting right *)
Definition shifted (p k : Z) (x : shr_record) : Prop :=
  0 <= shr_m x /\ exists rem, p = shr_m x * 2 ^ k + rem /\ 0 <= rem < 2 ^ k /\
    match shr_r x, shr_s x with
    | false, false => rem = 0 | false, true => 0 < rem /\ 2 * rem < 2 ^ k
    | true, false => 2 * rem = 2 ^ k | true, true => 2 ^ k < 2 * rem
    end.
Lemma shifted_1 p k x : 0 <= k -> shifted p k x -> shifted p (k + 1) (shr_1 x).
Proof.
  intros Hk (Hm & rem & E & Hr & HL). destruct x as [m r s]. cbn [shr_m shr_r shr_s] in *.
  assert (HP : 2 ^ (k + 1) = 2 * 2 ^ k) by (rewrite Z.pow_add_r by lia; lia). assert (0 < 2 ^ k) by (apply Z.pow_pos_nonneg; lia).
  assert (HA : exists b m', 0 <= m' /\ m = 2 * m' + (if b : bool then 1 else 0) /\ shr_1 (Build_shr_record m r s) = Build_shr_record m' b (r || s)).
  { destruct m as [|q|q]; [exists false, 0; auto|destruct q as [q|q|]|lia]; [exists true, (Zpos q)|exists false, (Zpos q)|exists true, 0]; (split; [lia|]; split; [lia|reflexivity]). }
  destruct HA as (b & m' & Hm' & -> & ->). split; [exact Hm'|]. exists ((if b then 2 ^ k else 0) + rem). cbn [shr_m shr_r shr_s]. rewrite HP.
  split; [destruct b; lia|]. split; [destruct b; lia|]. destruct b, r, s; cbn [orb]; lia.
Qed.
Lemma shifted_iter q : forall p k x, 0 <= k -> shifted p k x -> shifted p (k + Zpos q) (iter_pos shr_1 q x).
Proof.
  induction q as [q IH|q IH|]; intros p k x Hk H; cbn [iter_pos].
  - replace (k + Zpos q~1) with (k + 1 + Zpos q + Zpos q) by lia. apply IH; [lia|]. apply IH; [lia|]. apply shifted_1; auto.
  - replace (k + Zpos q~0) with (k + Zpos q + Zpos q) by lia. apply IH; [lia|]. apply IH; auto.
  - apply shifted_1; auto.
Qed.
Lemma shifted_round p k x : shifted p k x -> let r := round_nearest_even (shr_m x) (loc_of_shr_record x) in
  (r = shr_m x \/ r = shr_m x + 1) /\ 2 * Z.abs (p - r * 2 ^ k) <= 2 ^ k /\ (2 * Z.abs (p - r * 2 ^ k) = 2 ^ k -> k = 0 \/ Z.even r = true).
Proof.
  intros (Hm & rem & E & Hr & HL). destruct x as [m r s]. cbn [shr_m shr_r shr_s] in *. destruct r, s; cbn [loc_of_shr_record round_nearest_even].
  - cbv zeta. split; [lia|]. split; lia.
  - destruct (Z.even m) eqn:EM; cbv zeta; (split; [lia|]; split; [lia|]); intros _; right; [exact EM|]. rewrite Z.even_add, EM. reflexivity.
  - cbv zeta. split; [lia|]. split; lia.
  - cbv zeta. split; [lia|]. subst rem. rewrite Z.add_0_r in E. rewrite E, Z.sub_diag. cbn [Z.abs Z.mul]. split; lia.
Qed.

(** ** A float nearest to a positive integer of more than 24 digits *)
Lemma round_big s p n : 0 < n -> n + 24 <= 127 -> 2 ^ (n + 23) <= Zpos p < 2 ^ (n + 24) ->
  exists r m e, binary_round fprec femax s p 0 = S754_finite s m e /\ canon (Zpos m) e /\ Zpos m * 2 ^ (e + 149) = r * 2 ^ (n + 149) /\ 2 * Z.abs (Zpos p - r * 2 ^ n) <= 2 ^ n /\ (2 * Z.abs (Zpos p - r * 2 ^ n) = 2 ^ n -> Z.even (Zpos m) = true).
Proof.
  intros Hn Hn2 Hp.
  assert (HD : Zdigits2 (Zpos p) = n + 24) by (apply Zdigits2_unique; [lia|]; replace (n + 24 - 1) with (n + 23) by lia; exact Hp).
  unfold binary_round. change (Zpos (digits2_pos p)) with (Zdigits2 (Zpos p)). rewrite HD, Z.add_0_r.
  assert (HF : forall d, 0 < d -> fx (d + 24) = d) by (intros d Hd; unfold fexp, emin, fprec, femax; lia). rewrite HF by lia.
  unfold shl_align. rewrite Z.sub_0_r. destruct n as [|q|q]; try lia. unfold binary_round_aux, shr_fexp. cbn [shr_record_of_loc]. rewrite HD, Z.add_0_r, HF, Z.sub_0_r by lia. cbn [shr].
  pose proof (shifted_iter q (Zpos p) 0 (Build_shr_record (Zpos p) false false) ltac:(lia)) as HS. rewrite Z.add_0_l in HS.
  assert (HS0 : shifted (Zpos p) (Zpos q) (iter_pos shr_1 q (Build_shr_record (Zpos p) false false))).
  { apply HS. split; [cbn; lia|]. exists 0. cbn. lia. } clear HS. rewrite Z.add_0_l.
  set (x := iter_pos shr_1 q _) in *. destruct (shifted_round _ _ _ HS0) as (HR & HB & HV). destruct HS0 as (Hm & rem & E & Hr & _). set (r := round_nearest_even _ _) in *. clearbody r.
  assert (HP : 0 < 2 ^ Zpos q) by (apply Z.pow_pos_nonneg; lia).
  rewrite !Z.pow_add_r in Hp by lia.
  assert (HX : 2 ^ 23 <= shr_m x < 2 ^ 24). { split; nia. } clearbody x.
  assert (Hc : 2 ^ 23 <= r < 2 ^ 24 \/ r = 2 ^ 24) by lia. exists r. destruct Hc as [Hc| ->].
  - assert (HDr : Zdigits2 r = 24) by (apply Zdigits2_unique; [lia|exact Hc]). rewrite HDr. replace (24 + Zpos q) with (Zpos q + 24) by lia. rewrite HF, Z.sub_diag by lia. cbn [shr shr_m].
    destruct r as [|r|r]; try lia. replace (Zle_bool (Zpos q) (femax - fprec)) with true by (symmetry; apply Zle_imp_le_bool; unfold femax, fprec; lia).
    exists r, (Zpos q). split; [reflexivity|]. split; [|split; [reflexivity|split; [exact HB|intro HQ; destruct (HV HQ); [lia|assumption]]]]. split; [lia|]. split; [rewrite HDr; replace (24 + Zpos q) with (Zpos q + 24) by lia; apply HF; lia|unfold femax, fprec; lia].
  - change (Zdigits2 (2 ^ 24)) with 25. replace (25 + Zpos q) with (Zpos q + 1 + 24) by lia. rewrite HF by lia. replace (Zpos q + 1 - Zpos q) with 1 by lia. cbn [shr].
    change (iter_pos shr_1 1 (Build_shr_record (2 ^ 24) false false)) with (Build_shr_record (2 ^ 23) false false). cbn [shr_m].
    change (2 ^ 23) with (Zpos 8388608). cbv iota. replace (Zle_bool (Zpos q + 1) (femax - fprec)) with true by (symmetry; apply Zle_imp_le_bool; unfold femax, fprec; lia).
    exists 8388608%positive, (Zpos q + 1). split; [reflexivity|]. split; [|split; [|split; [exact HB|reflexivity]]].
    + split; [lia|]. split; [|unfold femax, fprec; lia]. change (Zdigits2 (Zpos 8388608)) with 24. replace (24 + (Zpos q + 1)) with (Zpos q + 1 + 24) by lia. apply HF. lia.
    + replace (Zpos q + 1 + 149) with (1 + (Zpos q + 149)) by lia. rewrite (Z.pow_add_r 2 1) by lia. change (2 ^ 24) with (8388608 * 2). change (2 ^ 1) with 2. ring.
Qed.
(** Values of floats: multiples of a power of two with 24 digits. *)
Definition float_value (G : Z) : Prop := G = 0 \/ exists m e, 0 < m < 2 ^ 24 /\ -149 <= e /\ Z.abs G = m * 2 ^ (e + 149).
Lemma nearest_big p n r G : 0 < n -> 2 ^ (n + 23) <= p < 2 ^ (n + 24) -> 2 * Z.abs (p - r * 2 ^ n) <= 2 ^ n -> float_value G ->
  Z.abs (r * 2 ^ (n + 149) - p * 2 ^ 149) <= Z.abs (G - p * 2 ^ 149) /\
  (Z.abs (r * 2 ^ (n + 149) - p * 2 ^ 149) = Z.abs (G - p * 2 ^ 149) -> G = r * 2 ^ (n + 149) \/ 2 * Z.abs (p - r * 2 ^ n) = 2 ^ n).
Proof.
  intros Hn Hp Hr HG. set (T := 2 ^ 149). assert (HT : 0 < T) by (apply Z.pow_pos_nonneg; lia). set (U := 2 ^ n) in *. assert (HU : 0 < U) by (apply Z.pow_pos_nonneg; lia).
  rewrite (Z.pow_add_r 2 n 149) by lia. fold T U.
  assert (HM : forall k, Z.abs (r * (U * T) - p * T) <= Z.abs (k * (U * T) - p * T) /\ (Z.abs (r * (U * T) - p * T) = Z.abs (k * (U * T) - p * T) -> k * (U * T) = r * (U * T) \/ 2 * Z.abs (p - r * U) = U)).
  { intro k. replace (r * (U * T) - p * T) with ((r * U - p) * T) by ring. replace (k * (U * T) - p * T) with ((k * U - p) * T) by ring. rewrite !Z.abs_mul. rewrite (Z.abs_eq T) by lia.
    destruct (Z.eq_dec k r) as [->|Hne]; [split; [lia|auto]|]. assert (U <= Z.abs (k * U - r * U)). { replace (k * U - r * U) with ((k - r) * U) by ring. rewrite Z.abs_mul. rewrite (Z.abs_eq U) by lia. nia. }
    assert (HQ : Z.abs (r * U - p) <= Z.abs (k * U - p)) by lia. split; [apply Z.mul_le_mono_nonneg_r; lia|]. intro HE. apply Z.mul_reg_r in HE; [|lia]. right. lia. }
  rewrite Z.pow_add_r in Hp by lia. fold U in Hp.
  destruct (Z_lt_le_dec G (2 ^ 23 * (U * T))) as [Hlt|Hge].
  - specialize (HM (2 ^ 23)). assert (2 ^ 23 * (U * T) <= p * T) by nia. destruct HM as [HM _]. split; lia.
  - destruct HG as [->|(m & e & Hm & He & E)]; [nia|]. rewrite Z.abs_eq in E by nia. subst G.
    assert (Hen : n <= e).
    { destruct (Z_le_gt_dec n e); auto. exfalso. assert (HL : 2 ^ (e + 149) <= 2 ^ (n - 1 + 149)) by (apply Z.pow_le_mono_r; lia).
      assert (HX : 2 * 2 ^ (n - 1 + 149) = U * T). { unfold U, T. rewrite <- Z.pow_add_r by lia. replace (n + 149) with (1 + (n - 1 + 149)) by lia. rewrite (Z.pow_add_r 2 1) by lia. reflexivity. }
      assert (0 < 2 ^ (e + 149)) by (apply Z.pow_pos_nonneg; lia). change (2 ^ 24) with (2 * 2 ^ 23) in Hm. nia. }
    replace (m * 2 ^ (e + 149)) with (m * 2 ^ (e - n) * (U * T)); [apply HM|]. unfold U, T. rewrite <- Z.mul_assoc, <- !Z.pow_add_r by lia. do 2 f_equal. lia.
Qed.
Lemma value_of_float g : valid_f32 g = true -> finite_f32 g = true -> float_value (fval g).
Proof.
  intros HV HF. destruct g as [s| | |s m e]; try discriminate; [left; reflexivity|]. apply valid_canon in HV. pose proof (canon_digits _ _ HV) as HC. right. exists (Zpos m), e.
  destruct HV as (_ & H1 & _). pose proof (Zdigits2_bounds (Zpos m) ltac:(lia)) as [Hd Hb]. assert (Hd24 : Zdigits2 (Zpos m) <= 24) by (unfold fexp, emin, fprec, femax in H1; lia).
  assert (He : -149 <= e) by (unfold fexp, emin, fprec, femax in H1; lia). assert (2 ^ Zdigits2 (Zpos m) <= 2 ^ 24) by (apply Z.pow_le_mono_r; lia).
  split; [lia|]. split; [exact He|]. cbn [fval]. assert (0 < 2 ^ (e + 149)) by (apply Z.pow_pos_nonneg; lia). destruct s; nia.
Qed.
Theorem f_of_Z_nearest i : Z.abs i < 2 ^ 127 ->
  valid_f32 (f_of_Z i) = true /\ finite_f32 (f_of_Z i) = true /\
  forall g, valid_f32 g = true -> finite_f32 g = true -> Z.abs (fval (f_of_Z i) - i * 2 ^ 149) <= Z.abs (fval g - i * 2 ^ 149) /\
    (Z.abs (fval (f_of_Z i) - i * 2 ^ 149) = Z.abs (fval g - i * 2 ^ 149) -> fval g = fval (f_of_Z i) \/ exists s m e, f_of_Z i = S754_finite s m e /\ Z.even (Zpos m) = true).
Proof.
  intro Hi. destruct (Z_lt_le_dec (Z.abs i) (2 ^ 24)) as [Hs|Hb].
  - destruct (f_of_Z_exact i Hs) as (V & N & E). split; [exact V|]. split.
    + destruct (f_of_Z i) as [|s| |]; try reflexivity; [|discriminate N]. exfalso. cbn [fval] in E. assert (HX : Z.abs i * 2 ^ 149 = 2 ^ 300) by (destruct s; lia).
      change (2 ^ 300) with (2 ^ 151 * 2 ^ 149) in HX. assert (Z.abs i = 2 ^ 151) by nia. lia.
    + intros g _ _. rewrite E, Z.sub_diag. split; [lia|]. intro HE. left. lia.
  - set (n := Z.log2 (Z.abs i) - 23). pose proof (Z.log2_spec (Z.abs i) ltac:(lia)) as HL. assert (Hn1 : 24 <= Z.log2 (Z.abs i)) by (apply Z.log2_le_pow2; lia). assert (Hn2 : Z.log2 (Z.abs i) < 127) by (apply Z.log2_lt_pow2; lia).
    replace (Z.log2 (Z.abs i)) with (n + 23) in HL by lia. replace (Z.succ (n + 23)) with (n + 24) in HL by lia.
    assert (HB : forall m e, canon (Zpos m) e -> forall s, valid_f32 (S754_finite s m e) = true).
    { intros m e (_ & H1 & H2) s. unfold valid_f32, valid_binary, bounded, canonical_mantissa. apply andb_true_iff. split; [|apply Zle_imp_le_bool; auto]. apply Zeq_is_eq_bool. exact H1. }
    unfold f_of_Z, binary_normalize. destruct i as [|p|p]; [lia| |]; cbn [Z.abs] in HL.
    + destruct (round_big false p n ltac:(lia) ltac:(lia) HL) as (r & m & e & -> & HC & EV & HR & HV). split; [apply HB; exact HC|]. split; [reflexivity|]. intros g G1 G2. cbn [fval]. rewrite EV.
      destruct (nearest_big (Zpos p) n r (fval g) ltac:(lia) HL HR (value_of_float g G1 G2)) as [H1 H2]. split; [exact H1|]. intro HE. destruct (H2 HE) as [H3|H3]; [left; exact H3|right; exists false, m, e; auto].
    + destruct (round_big true p n ltac:(lia) ltac:(lia) HL) as (r & m & e & -> & HC & EV & HR & HV). split; [apply HB; exact HC|]. split; [reflexivity|]. intros g G1 G2. cbn [fval]. rewrite EV.
      assert (HG : float_value (- fval g)). { destruct (value_of_float g G1 G2) as [E|(m1 & e1 & A & B & C)]; [left; lia|right; exists m1, e1; rewrite Z.abs_opp; auto]. }
      destruct (nearest_big (Zpos p) n r (- fval g) ltac:(lia) HL HR HG) as [H1 H2]. change (Zneg p) with (- Zpos p). split; [lia|]. intro HE. destruct H2 as [H3|H3]; [lia|left; lia|right; exists true, m, e; auto].
Qed.
