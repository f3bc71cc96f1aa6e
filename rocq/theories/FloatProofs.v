From Verif Require Import Base ListLemmas Float Msg MsgProofs.

Lemma digits2_size p : digits2_pos p = Pos.size p.
Proof. induction p; cbn; congruence. Qed.
Lemma Zdigits2_log2 p : 0 < p -> Zdigits2 p = Z.log2 p + 1.
Proof.
  destruct p as [|p|p]; try lia. intros _. unfold Zdigits2. rewrite digits2_size.
  destruct p; cbn; lia.
Qed.
Lemma Zdigits2_pow2 m n : 0 < m -> 0 <= n -> Zdigits2 (m * 2 ^ n) = Zdigits2 m + n.
Proof.
  intros Hm Hn. assert (0 < 2 ^ n) by (apply Z.pow_pos_nonneg; lia).
  rewrite !Zdigits2_log2 by (try apply Z.mul_pos_pos; lia). rewrite Z.log2_mul_pow2 by lia. lia.
Qed.
Lemma Zdigits2_bounds m : 0 < m -> 0 < Zdigits2 m /\ 2 ^ (Zdigits2 m - 1) <= m < 2 ^ Zdigits2 m.
Proof.
  intro H. rewrite Zdigits2_log2 by auto. pose proof (Z.log2_spec m H). pose proof (Z.log2_nonneg m).
  replace (Z.log2 m + 1 - 1) with (Z.log2 m) by lia. replace (Z.log2 m + 1) with (Z.succ (Z.log2 m)) by lia. lia.
Qed.
Lemma Zdigits2_unique m d : 0 < d -> 2 ^ (d - 1) <= m < 2 ^ d -> Zdigits2 m = d.
Proof.
  intros Hd H. assert (0 < 2 ^ (d - 1)) by (apply Z.pow_pos_nonneg; lia).
  rewrite Zdigits2_log2 by lia. rewrite (Z.log2_unique m (d - 1)); try lia.
  replace (Z.succ (d - 1)) with d by lia. lia.
Qed.

Lemma shr_1_even m : 0 <= m -> shr_1 (Build_shr_record (2 * m) false false) = Build_shr_record m false false.
Proof. intro H. destruct m; try lia; reflexivity. Qed.
Lemma iter_shr p : forall m, 0 <= m ->
  iter_pos shr_1 p (Build_shr_record (m * 2 ^ Zpos p) false false) = Build_shr_record m false false.
Proof.
  induction p as [p IH|p IH|]; intros m Hm; cbn [iter_pos].
  - assert (0 < 2 ^ Zpos p) by (apply Z.pow_pos_nonneg; lia).
    replace (m * 2 ^ Zpos p~1) with (2 * (m * 2 ^ Zpos p * 2 ^ Zpos p)).
    2:{ replace (Zpos p~1) with (1 + Zpos p + Zpos p) by lia. rewrite !Z.pow_add_r by lia. change (2 ^ 1) with 2. ring. }
    assert (0 <= m * 2 ^ Zpos p) by (apply Z.mul_nonneg_nonneg; lia).
    rewrite shr_1_even by (apply Z.mul_nonneg_nonneg; lia). rewrite IH by auto. apply IH; auto.
  - assert (0 < 2 ^ Zpos p) by (apply Z.pow_pos_nonneg; lia).
    replace (m * 2 ^ Zpos p~0) with (m * 2 ^ Zpos p * 2 ^ Zpos p).
    2:{ replace (Zpos p~0) with (Zpos p + Zpos p) by lia. rewrite !Z.pow_add_r by lia. ring. }
    assert (0 <= m * 2 ^ Zpos p) by (apply Z.mul_nonneg_nonneg; lia).
    rewrite IH by auto. apply IH; auto.
  - replace (m * 2 ^ 1) with (2 * m) by lia. apply shr_1_even; auto.
Qed.

Notation fx := (fexp fprec femax).
Definition canon (m e : Z) : Prop := 0 < m /\ fx (Zdigits2 m + e) = e /\ e <= femax - fprec.

Lemma round_aux_exact s m e n : canon m e -> 0 <= n ->
  binary_round_aux fprec femax s (m * 2 ^ n) (e - n) loc_Exact = S754_finite s (Z.to_pos m) e.
Proof.
  intros (Hm & Hc & He) Hn. unfold binary_round_aux, shr_fexp. cbn [shr_record_of_loc].
  rewrite Zdigits2_pow2 by auto.
  replace (Zdigits2 m + n + (e - n)) with (Zdigits2 m + e) by lia. rewrite Hc.
  replace (e - (e - n)) with n by lia.
  assert (HS : shr (Build_shr_record (m * 2 ^ n) false false) (e - n) n = (Build_shr_record m false false, e)).
  { destruct n as [|p|p]; try lia.
    - cbn. f_equal; [f_equal; lia|lia].
    - cbn [shr]. rewrite iter_shr by lia. f_equal. lia. }
  rewrite HS. cbn [shr_m loc_of_shr_record round_nearest_even]. rewrite Hc, Z.sub_diag. cbn [shr shr_m].
  destruct m as [|p|p]; try lia. cbn [Z.to_pos].
  destruct (Zle_bool e (femax - fprec)) eqn:E; auto. lia.
Qed.

Lemma shift_pos_Z n m : Zpos (shift_pos n m) = Zpos m * 2 ^ Zpos n.
Proof. rewrite shift_pos_correct. change (2 ^ Zpos n) with (Z.pow_pos 2 n). ring. Qed.

Lemma to_pos_Z m p : Z.to_pos m = p -> 0 < m -> m = Zpos p.
Proof. intros <- H. rewrite Z2Pos.id; auto. Qed.

Lemma round_exact s m e m' e' n : canon m' e' -> 0 <= n -> 0 < m ->
  (m = m' * 2 ^ n /\ e = e' - n) \/ (m' = m * 2 ^ n /\ e = e' + n) ->
  binary_round fprec femax s (Z.to_pos m) e = S754_finite s (Z.to_pos m') e'.
Proof.
  intros HC Hn Hm HE. pose proof HC as (Hm' & Hc & He). unfold binary_round.
  assert (HD : Zpos (digits2_pos (Z.to_pos m)) = Zdigits2 m).
  { destruct m; try lia. reflexivity. }
  rewrite HD. destruct HE as [[-> ->]|[-> ->]].
  - rewrite Zdigits2_pow2 by auto.
    replace (Zdigits2 m' + n + (e' - n)) with (Zdigits2 m' + e') by lia. rewrite Hc.
    unfold shl_align. replace (e' - (e' - n)) with n by lia.
    destruct n as [|p|p]; try lia; rewrite Z2Pos.id by auto; apply round_aux_exact; auto.
  - rewrite Zdigits2_pow2 in Hc by auto.
    replace (Zdigits2 m + (e' + n)) with (Zdigits2 m + n + e') by lia. rewrite Hc.
    unfold shl_align. replace (e' - (e' + n)) with (- n) by lia.
    destruct n as [|p|p]; try lia; cbn [Z.opp].
    + rewrite Z2Pos.id by auto. pose proof (round_aux_exact s (m * 2 ^ 0) e' 0 HC ltac:(lia)) as HR.
      change (2 ^ 0) with 1 in HR. rewrite !Z.mul_1_r in HR. rewrite Z.sub_0_r in HR.
      rewrite Z.add_0_r. change (2 ^ 0) with 1. rewrite Z.mul_1_r. exact HR.
    + rewrite shift_pos_Z, Z2Pos.id by auto.
      pose proof (round_aux_exact s (m * 2 ^ Zpos p) e' 0 HC ltac:(lia)) as HR.
      change (2 ^ 0) with 1 in HR. rewrite Z.mul_1_r, Z.sub_0_r in HR. exact HR.
Qed.

Lemma shl_align_spec m ex ex' : ex' <= ex -> Zpos (fst (shl_align m ex ex')) = Zpos m * 2 ^ (ex - ex').
Proof.
  intro H. unfold shl_align. destruct (ex' - ex) as [|p|p] eqn:E; cbn [fst]; try lia.
  - replace (ex - ex') with 0 by lia. lia.
  - rewrite shift_pos_Z. do 2 f_equal. lia.
Qed.

Lemma canon_24 m e : 2 ^ 23 <= m < 2 ^ 24 -> -149 <= e <= 104 -> canon m e.
Proof.
  intros Hm He. assert (0 < m) by lia. split; auto. unfold femax, fprec. split; [|lia].
  rewrite (Zdigits2_unique m 24) by lia. unfold fexp, emin, femax, fprec. lia.
Qed.

Lemma valid_canon s m e : valid_f32 (S754_finite s m e) = true -> canon (Zpos m) e.
Proof.
  unfold valid_f32, valid_binary, bounded, canonical_mantissa. intro H.
  apply andb_true_iff in H as [H1 H2]. apply Zeq_bool_eq in H1. split; [lia|]. split; [exact H1|].
  apply Zle_is_le_bool in H2. exact H2.
Qed.
Lemma canon_digits m e : canon m e -> 0 < Zdigits2 m <= 24 /\ -149 <= e <= 104 /\ e + Zdigits2 m <= 128.
Proof.
  intros (Hm & Hc & He). pose proof (Zdigits2_bounds m Hm). unfold fexp, emin, femax, fprec in *. lia.
Qed.

(** Powers of two used below. *)
Lemma pow_split a b : 0 <= a -> 0 <= b -> 2 ^ (a + b) = 2 ^ a * 2 ^ b.
Proof. intros. apply Z.pow_add_r; auto. Qed.
Lemma pow_pos a : 0 <= a -> 0 < 2 ^ a.
Proof. intro. apply Z.pow_pos_nonneg; lia. Qed.

Lemma ffrexp_spec s m e : valid_f32 (S754_finite s m e) = true ->
  let d := Zdigits2 (Zpos m) in
  ffrexp (S754_finite s m e) = (S754_finite s (Z.to_pos (Zpos m * 2 ^ (24 - d))) (-24), e + d) /\
  2 ^ 23 <= Zpos m * 2 ^ (24 - d) < 2 ^ 24.
Proof.
  intros HV d. pose proof (valid_canon _ _ _ HV) as HC. pose proof (canon_digits _ _ HC) as (Hd & He & _). fold d in Hd.
  pose proof (Zdigits2_bounds (Zpos m) ltac:(lia)) as [_ Hb]. fold d in Hb. split.
  - unfold ffrexp, SFfrexp. change (Z.to_pos fprec) with 24%positive.
    change (Zpos (digits2_pos m)) with d.
    destruct (24 <=? digits2_pos m)%positive eqn:E.
    + assert (d = 24). { apply Pos.leb_le in E. unfold d, Zdigits2 in *. lia. }
      rewrite H. change (2 ^ (24 - 24)) with 1. rewrite Z.mul_1_r. cbn [Z.to_pos]. unfold fprec. f_equal.
    + unfold fprec. f_equal.
      * f_equal. apply Pos.leb_gt in E. assert (d < 24) by (unfold d, Zdigits2; lia).
        apply Pos2Z.inj. rewrite shift_pos_Z, Z2Pos.id by lia. rewrite Z2Pos.id; [reflexivity|].
        apply Z.mul_pos_pos; [lia|apply pow_pos; lia].
      * lia.
  - replace 23 with ((d - 1) + (24 - d)) by lia. rewrite pow_split by lia.
    assert (HX : 2 ^ 24 = 2 ^ d * 2 ^ (24 - d)). { rewrite <- pow_split by lia. f_equal. lia. }
    rewrite HX. pose proof (pow_pos (24 - d) ltac:(lia)). split.
    + apply Z.mul_le_mono_nonneg_r; lia.
    + apply Z.mul_lt_mono_pos_r; lia.
Qed.

Lemma max_mant_val : f_of_Z MAX_MANTISSA = S754_finite false 8388608 8.
Proof. vm_compute. reflexivity. Qed.
Lemma two_max_val : fmul f_two (f_of_Z MAX_MANTISSA) = S754_finite false 8388608 9.
Proof. vm_compute. reflexivity. Qed.

Lemma fmul_pow2 s M e k : 2 ^ 23 <= M < 2 ^ 24 -> -149 <= e + 23 + k <= 104 ->
  fmul (S754_finite s (Z.to_pos M) e) (S754_finite false 8388608 k) = S754_finite s (Z.to_pos M) (e + 23 + k).
Proof.
  intros HM He. unfold fmul, SFmul. rewrite xorb_false_r.
  replace (Zpos (Z.to_pos M * 8388608)) with (M * 2 ^ 23) by (rewrite Pos2Z.inj_mul, Z2Pos.id by lia; reflexivity).
  replace (e + k) with (e + 23 + k - 23) by lia. apply round_aux_exact; [|lia]. apply canon_24; auto.
Qed.

(** The exact significand arithmetic behind the codec: k is the significand minus its
    leading bit, d the number of digits of k. *)
Section Chain.
Variables (k : Z).
Hypothesis Hk : 0 < k < 2 ^ 23.
Let d := Zdigits2 k.
Let mz := k * 2 ^ (24 - d).

Local Lemma d_rng : 0 < d <= 23.
Proof.
  unfold d. pose proof (Zdigits2_bounds k ltac:(lia)) as [H1 H2]. split; auto.
  destruct (Z_le_gt_dec (Zdigits2 k) 23); auto. exfalso.
  assert (2 ^ 23 <= 2 ^ (Zdigits2 k - 1)) by (apply Z.pow_le_mono_r; lia). lia.
Qed.
Local Lemma mz_rng : 2 ^ 23 <= mz < 2 ^ 24.
Proof.
  pose proof d_rng as Hd. pose proof (Zdigits2_bounds k ltac:(lia)) as [_ Hb]. fold d in Hb. unfold mz.
  replace 23 with ((d - 1) + (24 - d)) by lia. rewrite pow_split by lia.
  assert (HX : 2 ^ 24 = 2 ^ d * 2 ^ (24 - d)). { rewrite <- pow_split by lia. f_equal. lia. }
  rewrite HX. pose proof (pow_pos (24 - d) ltac:(lia)). split.
  - apply Z.mul_le_mono_nonneg_r; lia.
  - apply Z.mul_lt_mono_pos_r; lia.
Qed.

Lemma sub_half M : M = k + 2 ^ 23 ->
  fsub (S754_finite false (Z.to_pos M) (-24)) f_half = S754_finite false (Z.to_pos mz) (d - 48).
Proof.
  intro HM. pose proof d_rng. pose proof mz_rng. unfold fsub, f_half, SFsub. cbn [Z.min Z.compare].
  change (Z.min (-24) (-24)) with (-24). cbn [cond_Zopp].
  rewrite !shl_align_spec by lia. change (-24 - -24) with 0. change (2 ^ 0) with 1. rewrite !Z.mul_1_r.
  rewrite Z2Pos.id by lia. replace (M - 8388608) with k by lia.
  unfold binary_normalize. destruct k as [|p|p] eqn:Ek; try lia. rewrite <- Ek in *.
  replace p with (Z.to_pos k) by (rewrite Ek; reflexivity).
  apply (round_exact false k (-24) mz (d - 48) (24 - d)); try lia.
  - apply canon_24; auto; lia.
Qed.

Lemma to_int : f_to_int32 (fmul (fmul (S754_finite false (Z.to_pos mz) (d - 48)) f_two) (f_of_Z MAX_MANTISSA)) = Ok (256 * k).
Proof.
  pose proof d_rng. pose proof mz_rng. unfold f_two. rewrite fmul_pow2 by lia. rewrite max_mant_val.
  rewrite fmul_pow2 by lia. replace (d - 48 + 23 + -22 + 23 + 8) with (d - 16) by lia.
  unfold f_to_int32, f_trunc. rewrite Z2Pos.id by lia.
  assert (HE : (if 0 <=? d - 16 then mz * 2 ^ (d - 16) else mz / 2 ^ (- (d - 16))) = 256 * k).
  { unfold mz. destruct (0 <=? d - 16) eqn:E.
    - rewrite <- Z.mul_assoc, <- pow_split by lia. replace (24 - d + (d - 16)) with 8 by lia. change (2 ^ 8) with 256. lia.
    - replace (24 - d) with (8 + - (d - 16)) by lia. rewrite pow_split by lia. rewrite Z.mul_assoc.
      rewrite Z.div_mul by (pose proof (pow_pos (- (d - 16)) ltac:(lia)); lia). change (2 ^ 8) with 256. lia. }
  rewrite HE. destruct (int32_rangeb (256 * k)) eqn:E; auto. unfold int32_rangeb in E. lia.
Qed.

Lemma of_int : f_of_Z (256 * k) = S754_finite false (Z.to_pos mz) (d - 16).
Proof.
  pose proof d_rng. pose proof mz_rng. unfold f_of_Z, binary_normalize. destruct (256 * k) as [|p|p] eqn:Ek; try lia.
  replace p with (Z.to_pos (256 * k)) by (rewrite Ek; reflexivity). clear p Ek.
  assert (HC : canon mz (d - 16)) by (apply canon_24; auto; lia).
  destruct (Z_le_gt_dec d 16).
  - apply (round_exact false (256 * k) 0 mz (d - 16) (16 - d)); try lia; auto. right. split; [|lia]. unfold mz.
    replace (24 - d) with (8 + (16 - d)) by lia. rewrite pow_split by lia. change (2 ^ 8) with 256. lia.
  - apply (round_exact false (256 * k) 0 mz (d - 16) (d - 16)); try lia; auto. left. split; [|lia]. unfold mz.
    rewrite <- Z.mul_assoc, <- pow_split by lia. replace (24 - d + (d - 16)) with 8 by lia. change (2 ^ 8) with 256. lia.
Qed.

Lemma div_2max : fdiv (S754_finite false (Z.to_pos mz) (d - 16)) (S754_finite false 8388608 9) =
  S754_finite false (Z.to_pos mz) (d - 48).
Proof.
  pose proof d_rng. pose proof mz_rng. unfold fdiv, SFdiv, SFdiv_core_binary. rewrite Z2Pos.id by lia.
  rewrite (Zdigits2_unique mz 24) by lia. change (Zdigits2 8388608) with 24.
  replace (fx (24 + (d - 16) - (24 + 9))) with (d - 49) by (unfold fexp, emin, femax, fprec; lia).
  replace (Z.min (d - 49) (d - 16 - 9)) with (d - 49) by lia.
  replace (d - 16 - 9 - (d - 49)) with 24 by lia. rewrite Z.shiftl_mul_pow2 by lia.
  assert (HQ : Z.div_eucl (mz * 2 ^ 24) 8388608 = (mz * 2, 0)).
  { pose proof (Z.div_mul (mz * 2) 8388608 ltac:(lia)) as H1. pose proof (Z.mod_mul (mz * 2) 8388608 ltac:(lia)) as H2.
    replace (mz * 2 * 8388608) with (mz * 2 ^ 24) in H1, H2 by lia. unfold Z.div in H1. unfold Z.modulo in H2.
    destruct (Z.div_eucl (mz * 2 ^ 24) 8388608). congruence. }
  rewrite HQ. change (new_location 8388608 0) with loc_Exact. cbn [xorb].
  change (mz * 2) with (mz * 2 ^ 1). replace (d - 49) with (d - 48 - 1) by lia.
  apply round_aux_exact; [|lia]. apply canon_24; auto; lia.
Qed.

Lemma add_half : fadd (S754_finite false (Z.to_pos mz) (d - 48)) f_half = S754_finite false (Z.to_pos (k + 2 ^ 23)) (-24).
Proof.
  pose proof d_rng. pose proof mz_rng. unfold fadd, f_half, SFadd. cbn [cond_Zopp].
  replace (Z.min (d - 48) (-24)) with (d - 48) by lia. rewrite !shl_align_spec by lia.
  replace (d - 48 - (d - 48)) with 0 by lia. change (2 ^ 0) with 1. rewrite Z.mul_1_r, Z2Pos.id by lia.
  replace (-24 - (d - 48)) with (24 - d) by lia.
  assert (HS : mz + 8388608 * 2 ^ (24 - d) = (k + 2 ^ 23) * 2 ^ (24 - d)) by (unfold mz; lia).
  rewrite HS. pose proof (pow_pos (24 - d) ltac:(lia)).
  assert (HP : 0 < (k + 2 ^ 23) * 2 ^ (24 - d)) by (apply Z.mul_pos_pos; lia).
  unfold binary_normalize. destruct ((k + 2 ^ 23) * 2 ^ (24 - d)) as [|p|p] eqn:E; try lia.
  replace p with (Z.to_pos ((k + 2 ^ 23) * 2 ^ (24 - d))) by (rewrite E; reflexivity). rewrite <- E in HP.
  apply (round_exact false _ (d - 48) (k + 2 ^ 23) (-24) (24 - d)); try lia.
  - apply canon_24; lia.
Qed.
End Chain.

(** Encoding of a non-zero finite float: the mantissa carries the significand. *)
Lemma float_enc_spec s m e : valid_f32 (S754_finite s m e) = true ->
  let d := Zdigits2 (Zpos m) in
  let k := Zpos m * 2 ^ (24 - d) - 2 ^ 23 in
  0 <= k < 2 ^ 23 /\
  float_mant_exp (S754_finite s m e) = Ok (if s then - (256 * k + 1) else 256 * k + 1, e + d).
Proof.
  intros HV d k. destruct (ffrexp_spec s m e HV) as [HF HM]. fold d in HF, HM.
  assert (Hk : 0 <= k < 2 ^ 23) by (unfold k; lia). split; auto.
  unfold float_mant_exp. rewrite HF. cbn [fabs SFabs].
  assert (Hsg : flt (S754_finite s m e) f_zero = s) by (unfold flt, SFltb; cbn; destruct s; reflexivity).
  rewrite Hsg.
  destruct (Z.eq_dec k 0) as [E0|E0].
  - replace (Zpos m * 2 ^ (24 - d)) with (2 ^ 23) by (unfold k in E0; lia).
    replace (fsub (S754_finite false (Z.to_pos (2 ^ 23)) (-24)) f_half) with (S754_zero false) by (vm_compute; reflexivity).
    change (flt (S754_zero false) f_zero) with false. cbv iota.
    replace (f_to_int32 (fmul (fmul (S754_zero false) f_two) (f_of_Z MAX_MANTISSA))) with (Ok 0) by (vm_compute; reflexivity).
    cbn [bind]. change (int32_rangeb (0 + 1)) with true. cbv iota. rewrite E0. reflexivity.
  - rewrite (sub_half k ltac:(lia)) by (unfold k; lia).
    assert (Hlt : flt (S754_finite false (Z.to_pos (k * 2 ^ (24 - Zdigits2 k))) (Zdigits2 k - 48)) f_zero = false) by reflexivity.
    rewrite Hlt. rewrite (to_int k ltac:(lia)). cbn [bind].
    destruct (int32_rangeb (256 * k + 1)) eqn:E; [reflexivity|]. unfold int32_rangeb in E. lia.
Qed.

Lemma float_dec_spec s m e : valid_f32 (S754_finite s m e) = true ->
  let d := Zdigits2 (Zpos m) in
  let k := Zpos m * 2 ^ (24 - d) - 2 ^ 23 in
  float_of_mant_exp (if s then - (256 * k + 1) else 256 * k + 1) (e + d) = Ok (S754_finite s m e).
Proof.
  intros HV d k. destruct (ffrexp_spec s m e HV) as [HF HM]. fold d in HF, HM.
  pose proof (valid_canon _ _ _ HV) as HC. pose proof (canon_digits _ _ HC) as (Hd & He & _). fold d in Hd.
  assert (Hk : 0 <= k < 2 ^ 23) by (unfold k; lia).
  unfold float_of_mant_exp. set (mant := if s then - (256 * k + 1) else 256 * k + 1).
  assert (Hm1 : (mant =? 0) = false) by (unfold mant; destruct s; lia).
  assert (Hm2 : (mant =? - 2 ^ 31) = false) by (unfold mant; destruct s; lia).
  assert (Hm3 : Z.abs mant - 1 = 256 * k) by (unfold mant; destruct s; lia).
  assert (Hm4 : (mant <? 0) = s) by (unfold mant; destruct s; lia).
  rewrite Hm1, Hm2, Hm3, Hm4, two_max_val.
  assert (HN : fadd (fdiv (f_of_Z (256 * k)) (S754_finite false 8388608 9)) f_half =
               S754_finite false (Z.to_pos (k + 2 ^ 23)) (-24)).
  { destruct (Z.eq_dec k 0) as [E0|E0].
    - rewrite E0. vm_compute. reflexivity.
    - rewrite (of_int k ltac:(lia)), (div_2max k ltac:(lia)), (add_half k ltac:(lia)). reflexivity. }
  rewrite HN. unfold fldexp, SFldexp.
  rewrite (round_exact false (k + 2 ^ 23) (-24 + (e + d)) (Zpos m) e (24 - d)); auto; try lia.
  - cbn [Z.to_pos]. destruct s; reflexivity.
Qed.

Lemma sign32_wrap z : int32_range z -> sign32 (wrap32 z) = z.
Proof.
  unfold int32_range, sign32, wrap32. intro H. rewrite Z.mod_mod by lia.
  destruct (Z_le_gt_dec 0 z).
  - rewrite Z.mod_small by lia. destruct (z <? 2 ^ 31) eqn:E; lia.
  - replace (z mod 2 ^ 32) with (z + 2 ^ 32).
    + destruct (z + 2 ^ 32 <? 2 ^ 31) eqn:E; lia.
    + apply (Z.mod_unique _ _ (-1) (z + 2 ^ 32)); lia.
Qed.

Lemma ser_u32_any buf x : ser_u32 buf x = buf ++ enc32 (wrap32 x).
Proof.
  unfold ser_u32, ser_u32_h. replace (wrap32 x) with (wrap32 (wrap32 x)) at 1.
  - apply (ser_u32_enc buf (wrap32 x)). unfold wrap32. apply Z.mod_pos_bound. lia.
  - unfold wrap32. rewrite Z.mod_mod; lia.
Qed.
Lemma wrap32_rng x : 0 <= wrap32 x < 2 ^ 32.
Proof. unfold wrap32. apply Z.mod_pos_bound. lia. Qed.

(** The numeric value is what the codec preserves: the sign of zero is not transmitted. *)
Definition canon_zero (f : f32) : f32 := match f with S754_zero _ => S754_zero false | _ => f end.

Lemma float_roundtrip pre post f : valid_f32 f = true -> finite_f32 f = true ->
  exists enc, ser_float pre f = Ok (pre ++ enc) /\ zlen enc = 8 /\
    de_float (pre ++ enc ++ post) (zlen pre) = Ok (Some (canon_zero f, zlen pre + 8)).
Proof.
  intros HV HF.
  assert (HG : exists mant exp, float_mant_exp f = Ok (mant, exp) /\ int32_range mant /\ int32_range exp /\
                float_of_mant_exp mant exp = Ok (canon_zero f)).
  { destruct f as [s| | |s m e]; try discriminate.
    - exists 0, 0. splits; try (destruct s; vm_compute; reflexivity); unfold int32_range; lia.
    - destruct (float_enc_spec s m e HV) as [Hk HE]. eexists _, _. split; [exact HE|].
      pose proof (valid_canon _ _ _ HV) as HC. pose proof (canon_digits _ _ HC) as (Hd & He & _).
      splits; [unfold int32_range; destruct s; lia|unfold int32_range; lia|].
      exact (float_dec_spec s m e HV). }
  destruct HG as (mant & exp & HE & Hm & He & HD).
  exists (enc32 (wrap32 mant) ++ enc32 (wrap32 exp)). split; [|split; [reflexivity|]].
  - unfold ser_float. rewrite HE. cbn [bind]. rewrite !ser_u32_any, <- app_assoc. reflexivity.
  - unfold de_float. rewrite !zlen_app. pose proof (zlen_nonneg post).
    assert (HL : forall x, zlen (enc32 x) = 4) by reflexivity. rewrite !HL.
    destruct (zlen pre + 8 >? zlen pre + (4 + 4 + zlen post)) eqn:E; [lia|].
    rewrite <- app_assoc. rewrite de_u32_enc by apply wrap32_rng. cbn [bind].
    replace (pre ++ enc32 (wrap32 mant) ++ enc32 (wrap32 exp) ++ post)
      with ((pre ++ enc32 (wrap32 mant)) ++ enc32 (wrap32 exp) ++ post) by (rewrite <- app_assoc; reflexivity).
    replace (zlen pre + 4) with (zlen (pre ++ enc32 (wrap32 mant))) by (rewrite zlen_app, HL; lia).
    rewrite de_u32_enc by apply wrap32_rng. cbn [bind]. rewrite !sign32_wrap by auto. rewrite HD. cbn [bind].
    do 3 f_equal. rewrite zlen_app, HL. lia.
Qed.

(** Non-finite floats: encoding is undefined behaviour. *)
Lemma float_nonfinite buf f : finite_f32 f = false -> ser_float buf f = UB.
Proof. destruct f as [|s| |]; try discriminate; intros _; [destruct s|]; vm_compute; reflexivity. Qed.
