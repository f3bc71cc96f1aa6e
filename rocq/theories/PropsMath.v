(** Theorems about the random numbers and the mathematical functions: C51, C81, C82. *)
From Coq Require Import String.
From Verif Require Import Base ListLemmas Float FloatProofs Dict PDict Strman StrmanSpec Obj ObjSpec ObjProofs Instr Vm VmSpec VmProofs Text Strlib CFunSpec CFunProofs
  PropsStrlib Mathlib MathSpec.
Local Open Scope Z_scope.
Local Open Scope list_scope.

(** ** The generator *)
Definition w32 (z : Z) : Prop := 0 <= z < 2 ^ 32.
Lemma w32_log z : w32 z <-> 0 <= z /\ (z = 0 \/ Z.log2 z < 32).
Proof.
  unfold w32. split.
  - intros [H1 H2]. split; auto. destruct (Z.eq_dec z 0); auto. right. apply Z.log2_lt_pow2; lia.
  - intros [H1 [->|H2]]; [lia|]. split; auto. destruct (Z.eq_dec z 0); [subst; lia|]. apply Z.log2_lt_pow2; lia.
Qed.
Lemma w32_lxor a b : w32 a -> w32 b -> w32 (Z.lxor a b).
Proof.
  rewrite !w32_log. intros [A1 A2] [B1 B2]. assert (0 <= Z.lxor a b) by (apply Z.lxor_nonneg; lia). split; auto.
  destruct A2 as [->|A2]. { rewrite Z.lxor_0_l. auto. } destruct B2 as [->|B2]. { rewrite Z.lxor_0_r. auto. }
  right. pose proof (Z.log2_lxor a b A1 B1). lia.
Qed.
Lemma w32_lor a b : w32 a -> w32 b -> w32 (Z.lor a b).
Proof.
  rewrite !w32_log. intros [A1 A2] [B1 B2]. assert (0 <= Z.lor a b) by (apply Z.lor_nonneg; lia). split; auto.
  destruct A2 as [->|A2]. { rewrite Z.lor_0_l. auto. } destruct B2 as [->|B2]. { rewrite Z.lor_0_r. auto. }
  right. rewrite Z.log2_lor by auto. lia.
Qed.
Lemma w32_land a b : w32 a -> 0 <= b -> w32 (Z.land a b).
Proof.
  intros HA B1. assert (0 <= Z.land a b) by (apply Z.land_nonneg; unfold w32 in *; lia).
  apply w32_log in HA as [A1 A2]. apply w32_log. split; auto. destruct A2 as [->|A2]. { left. apply Z.land_0_l. }
  right. pose proof (Z.log2_land a b A1 B1). lia.
Qed.
Lemma w32_shiftr a n : 0 <= n -> w32 a -> w32 (Z.shiftr a n).
Proof.
  intros Hn [A1 A2]. rewrite Z.shiftr_div_pow2 by auto. pose proof (Z.pow_pos_nonneg 2 n ltac:(lia) Hn). split; [apply Z.div_pos; lia|].
  apply Z.le_lt_trans with a; auto. apply Z.div_le_upper_bound; [lia|]. nia.
Qed.
Lemma w32_wrap z : w32 (wrap32 z). Proof. unfold wrap32, w32. apply Z.mod_pos_bound. lia. Qed.
Lemma temper_w32 y : w32 y -> w32 (temper y).
Proof.
  intro H. unfold temper. repeat first [apply w32_lxor | apply w32_shiftr; [lia|] | apply w32_land; [|lia] | apply w32_wrap | exact H].
Qed.

Definition good_state (st : list Z) : Prop := zlen st = 624 /\ Forall w32 st.
Lemma word_ok st i : good_state st -> 0 <= i < 624 -> exists w, word st i = Ok w /\ w32 w.
Proof.
  intros [HL HW] Hi. unfold word. replace (i <? 0) with false by lia. destruct (nth_error st (Z.to_nat i)) as [w|] eqn:E.
  - exists w. split; auto. rewrite Forall_forall in HW. apply HW. eapply nth_error_In; eauto.
  - apply nth_error_None in E. unfold zlen in HL. lia.
Qed.
Lemma upd_forall {A} (P : A -> Prop) l : forall n x, Forall P l -> P x -> Forall P (upd l n x).
Proof. induction l as [|h l IH]; intros [|n] x HF Hx; cbn; auto; inversion HF; constructor; auto. Qed.
Lemma put_ok st i w : good_state st -> 0 <= i < 624 -> w32 w -> exists st', put_word st i w = Ok st' /\ good_state st'.
Proof.
  intros [HL HW] Hi Hw. unfold put_word. replace ((i <? 0) || (zlen st <=? i)) with false by lia. eexists. split; [reflexivity|].
  split; [unfold zlen in *; rewrite upd_length; auto|apply upd_forall; auto].
Qed.
Lemma gen_word_ok st k j l : good_state st -> 0 <= k < 624 -> 0 <= j < 624 -> 0 <= l < 624 -> exists st', gen_word st k j l = Ok st' /\ good_state st'.
Proof.
  intros G Hk Hj Hl. unfold gen_word. destruct (word_ok st k G Hk) as (a & -> & Wa). destruct (word_ok st j G Hj) as (b & -> & Wb).
  destruct (word_ok st l G Hl) as (c & -> & Wc). cbn [bind]. apply put_ok; auto.
  assert (HY : w32 (Z.lor (Z.land a UPPER_MASK) (Z.land b LOWER_MASK))) by (apply w32_lor; apply w32_land; auto; unfold UPPER_MASK, LOWER_MASK; lia).
  apply w32_lxor; [apply w32_lxor; auto; apply w32_shiftr; auto; lia|]. destruct (Z.odd _); unfold w32, MATRIX_A; lia.
Qed.
Lemma gen_loop_ok n : forall k off st, good_state st -> 0 <= k -> k + Z.of_nat n < 624 -> 0 <= k + off -> k + off + Z.of_nat n <= 624 ->
  exists st', gen_loop n k off st = Ok st' /\ good_state st'.
Proof.
  induction n as [|n IH]; intros k off st G H1 H2 H3 H4; cbn [gen_loop]; [eauto|].
  destruct (gen_word_ok st k (k + 1) (k + off) G ltac:(lia) ltac:(lia) ltac:(lia)) as (st' & -> & G'). cbn [bind]. apply IH; auto; lia.
Qed.
Lemma generate_ok st : good_state st -> exists st', generate st = Ok st' /\ good_state st'.
Proof.
  intro G. unfold generate. destruct (gen_loop_ok 227 0 MT_M st G ltac:(lia) ltac:(lia) ltac:(unfold MT_M; lia) ltac:(unfold MT_M; lia)) as (s1 & -> & G1). cbn [bind].
  destruct (gen_loop_ok 396 227 (MT_M - MT_N) s1 G1 ltac:(lia) ltac:(lia) ltac:(unfold MT_M, MT_N; lia) ltac:(unfold MT_M, MT_N; lia)) as (s2 & -> & G2). cbn [bind].
  apply gen_word_ok; auto; unfold MT_M, MT_N; lia.
Qed.
Definition good_mt (r : mt) : Prop := good_state (mt_state r) /\ 0 <= mt_idx r <= 624.
Lemma draw_ok r : good_mt r -> exists y r', mt_uniform32 r = Ok (y, r') /\ w32 y /\ good_mt r'.
Proof.
  intros [G Hi]. unfold mt_uniform32, MT_N.
  assert (H1 : exists r1, (if 624 <=? mt_idx r then st <- generate (mt_state r) ;; Ok (mkMt st 0) else Ok r) = Ok r1 /\ good_state (mt_state r1) /\ 0 <= mt_idx r1 < 624).
  { destruct (624 <=? mt_idx r) eqn:E; [|exists r; split; auto; split; auto; lia]. destruct (generate_ok _ G) as (st & -> & G'). cbn [bind]. eexists. split; [reflexivity|]. cbn. split; auto. lia. }
  destruct H1 as (r1 & -> & G1 & Hr). cbn [bind]. destruct (word_ok _ _ G1 Hr) as (y & -> & Wy). cbn [bind]. do 2 eexists. split; [reflexivity|].
  split; [apply temper_w32; auto|]. split; cbn; auto. unfold wrap32. rewrite Z.mod_small by lia. lia.
Qed.
(** Seeding overwrites every word. *)
Lemma seed_loop_ok n : forall i st st2, zlen st = 624 -> zlen st2 = 624 -> 0 < i -> i + Z.of_nat n = 624 -> firstn (Z.to_nat i) st = firstn (Z.to_nat i) st2 ->
  Forall w32 (firstn (Z.to_nat i) st) -> exists st', seed_loop n i st = Ok st' /\ seed_loop n i st2 = Ok st' /\ good_state st'.
Proof.
  induction n as [|n IH]; intros i st st2 HL HL2 Hi HN HE HF; cbn [seed_loop].
  - replace (Z.to_nat i) with 624%nat in * by lia. rewrite (firstn_all2 st) in HE by (unfold zlen in *; lia). rewrite (firstn_all2 st2) in HE by (unfold zlen in *; lia). rewrite (firstn_all2 st) in HF by (unfold zlen in *; lia). subst st2. exists st. split; auto. split; auto. split; auto.
  - assert (HW : exists p, word st (i - 1) = Ok p /\ word st2 (i - 1) = Ok p).
    { unfold word. replace (i - 1 <? 0) with false by lia. destruct (nth_error st (Z.to_nat (i - 1))) as [p|] eqn:E; [|apply nth_error_None in E; unfold zlen in *; lia].
      exists p. split; auto. assert (Hlt : (Z.to_nat (i - 1) < Z.to_nat i)%nat) by lia.
      assert (HG : forall l : list Z, nth_error (firstn (Z.to_nat i) l) (Z.to_nat (i - 1)) = nth_error l (Z.to_nat (i - 1))).
      { clear - Hlt. revert Hlt. generalize (Z.to_nat i) as a, (Z.to_nat (i - 1)) as b. induction a as [|a IH]; intros [|b] H [|x l]; cbn; try lia; auto. apply IH. lia. }
      rewrite <- (HG st2), <- HE, HG, E. reflexivity. }
    destruct HW as (p & -> & ->). cbn [bind]. unfold put_word. replace ((i <? 0) || (zlen st <=? i)) with false by lia.
    replace ((i <? 0) || (zlen st2 <=? i)) with false by lia. cbn [bind].
    set (w := wrap32 _).
    assert (HU : forall l : list Z, zlen l = 624 -> firstn (Z.to_nat (i + 1)) (upd l (Z.to_nat i) w) = firstn (Z.to_nat i) l ++ [w]).
    { intros l Hl. replace (Z.to_nat (i + 1)) with (S (Z.to_nat i)) by lia. assert (Hlt : (Z.to_nat i < length l)%nat) by (unfold zlen in Hl; lia). clear - Hlt.
      revert Hlt. generalize (Z.to_nat i) as a. revert l. induction l as [|x l IH]; intros [|a] H; cbn in *; try lia; auto. rewrite IH by lia. reflexivity. }
    apply IH; try lia; try (unfold zlen in *; rewrite upd_length; auto).
    + rewrite !HU by auto. rewrite HE. reflexivity.
    + rewrite HU by auto. apply Forall_app. split; auto. constructor; auto. apply w32_wrap.
Qed.
Lemma setseed_ok r r2 seed : zlen (mt_state r) = 624 -> zlen (mt_state r2) = 624 ->
  exists r', mt_setseed r seed = Ok r' /\ mt_setseed r2 seed = Ok r' /\ good_mt r'.
Proof.
  intros H1 H2. unfold mt_setseed, put_word. replace ((0 <? 0) || (zlen (mt_state r) <=? 0)) with false by lia. replace ((0 <? 0) || (zlen (mt_state r2) <=? 0)) with false by lia. cbn [bind].
  destruct (seed_loop_ok 623 1 (upd (mt_state r) (Z.to_nat 0) (wrap32 seed)) (upd (mt_state r2) (Z.to_nat 0) (wrap32 seed))) as (st & -> & -> & G);
    try (unfold zlen in *; rewrite upd_length; auto); try lia.
  - destruct (mt_state r), (mt_state r2); try discriminate; reflexivity.
  - destruct (mt_state r); try discriminate. cbn. constructor; auto. apply w32_wrap.
  - cbn [bind]. eexists. split; [reflexivity|]. split; [reflexivity|]. split; cbn; auto. unfold MT_N. lia.
Qed.
Lemma generated_good r : generated r -> good_mt r.
Proof.
  induction 1 as [r0 seed r HL H|r y r' _ IH H].
  - destruct (setseed_ok r0 r0 seed HL HL) as (r' & E & _ & G). rewrite H in E. inversion E; subst. exact G.
  - destruct (draw_ok r IH) as (y' & r1 & E & _ & G). rewrite H in E. inversion E; subst. exact G.
Qed.

(** ** C51 *)
(** Every state of the generator gives a next number; none of its array accesses is out of bounds. *)
Theorem C51_generator :
  forall r, generated r -> exists y r', mt_uniform32 r = Ok (y, r') /\ 0 <= y < 2 ^ 32 /\ generated r'.
Proof. intros r H. destruct (draw_ok r (generated_good r H)) as (y & r' & E & W & _). exists y, r'. split; [exact E|]. split; [exact W|]. eapply gen_draw; eauto. Qed.
Print Assumptions C51_generator.
(** Setting the same seed gives the same state, whatever the state was before. *)
Theorem C51_seed :
  forall r r2 seed, zlen (mt_state r) = 624 -> zlen (mt_state r2) = 624 ->
    exists r', mt_setseed r seed = Ok r' /\ mt_setseed r2 seed = Ok r' /\ generated r'.
Proof. intros r r2 seed H1 H2. destruct (setseed_ok r r2 seed H1 H2) as (r' & A & B & _). exists r'. split; [exact A|]. split; [exact B|]. exact (gen_seed r seed r' H1 A). Qed.
Print Assumptions C51_seed.

Lemma scale_range y d : w32 y -> int32_range d -> d <> -1 ->
  exists t, sign32 (scale_int y d) = t /\ (0 <= d -> 0 <= t <= d /\ t = y * d / RNG_MAX) /\ (d < -1 -> d <= t <= 0) /\ wrap64 (scale_int y d) = scale_int y d /\
    (exists q, scale_int y d = t + q * 2 ^ 32).
Proof.
  intros [Hy1 Hy2] [Hd1 Hd2] Hm1. unfold scale_int, RNG_MAX, wrap64 in *. change (2 ^ 32) with 4294967296 in *. change (2 ^ 31) with 2147483648 in *. change (2 ^ 64) with 18446744073709551616.
  destruct (Z.lt_ge_cases d 0) as [Hn|Hp].
  - assert (ED : d mod 18446744073709551616 = d + 18446744073709551616) by (symmetry; apply Z.mod_unique with (-1); lia). rewrite ED.
    destruct (Z.eq_dec y 0) as [->|Hy0].
    { exists 0. rewrite Z.mul_0_l. rewrite Z.mod_0_l, Z.div_0_l by lia. split; [reflexivity|]. split; [lia|]. split; [lia|]. split; [reflexivity|]. exists 0. reflexivity. }
    assert (Hyd : - (4294967295 * 2147483648) <= y * d <= -2).
    { pose proof (Z.mul_le_mono_nonneg y 4294967295 (- d) 2147483648 ltac:(lia) ltac:(lia) ltac:(lia) ltac:(lia)).
      pose proof (Z.mul_le_mono_nonneg 1 y 2 (- d) ltac:(lia) ltac:(lia) ltac:(lia) ltac:(lia)). lia. }
    assert (Hyd2 : 4294967295 * d <= y * d).
    { pose proof (Z.mul_le_mono_nonneg_r y 4294967295 (- d) ltac:(lia) ltac:(lia)). lia. }
    assert (EM : (y * (d + 18446744073709551616)) mod 18446744073709551616 = y * d + 18446744073709551616).
    { symmetry. apply Z.mod_unique with (y - 1); lia. }
    rewrite EM. set (q := (y * d + 18446744073709551616) / 4294967295).
    assert (Hq : 4294967295 * q <= y * d + 18446744073709551616 < 4294967295 * q + 4294967295).
    { unfold q. pose proof (Z.div_mod (y * d + 18446744073709551616) 4294967295 ltac:(lia)) as D. pose proof (Z.mod_pos_bound (y * d + 18446744073709551616) 4294967295 ltac:(lia)). lia. }
    assert (Hr : d <= q - 4294967296 <= 0) by lia.
    exists (q - 4294967296). split.
    { unfold sign32, wrap32. change (2 ^ 32) with 4294967296. change (2 ^ 31) with 2147483648. destruct (Z.eq_dec q 4294967296) as [->|Hne]; [reflexivity|].
      rewrite Z.mod_small by lia. replace (q <? 2147483648) with false by lia. reflexivity. }
    split; [lia|]. split; [lia|]. split; [apply Z.mod_small; lia|]. exists 1. lia.
  - rewrite (Z.mod_small d) by lia. assert (Hyd2 : 0 <= y * d <= 4294967295 * d).
    { pose proof (Z.mul_le_mono_nonneg_r y 4294967295 d ltac:(lia) ltac:(lia)). pose proof (Z.mul_nonneg_nonneg y d ltac:(lia) ltac:(lia)). lia. }
    assert (Hyd : 0 <= y * d <= 4294967295 * 2147483647) by lia. rewrite (Z.mod_small (y * d)) by lia.
    assert (Hq : 0 <= y * d / 4294967295 <= d). { split; [apply Z.div_pos; lia|]. apply Z.div_le_upper_bound; lia. }
    exists (y * d / 4294967295). split; [|split; [auto|split; [lia|split; [apply Z.mod_small; lia|exists 0; lia]]]].
    apply sign32_id. split; change (2 ^ 31) with 2147483648; lia.
Qed.

(** The state of the VM is that before the call, but for the generator. *)
Definition with_rng {X} (setr : X -> mt -> X) (v : vm X) (r : mt) : vm X := set_ext v (setr (v_ext v) r).

Section Uniform.
Context {X : Type}.
Variable getr : X -> mt.
Variable setr : X -> mt -> X.
Lemma called_rng (v : vm X) args ra s rest L r : called v args ra s rest L -> called (with_rng setr v r) args ra s rest L.
Proof. intros [HS HL HR]. constructor; auto. Qed.
Lemma draw_vm (v : vm X) : generated (getr (v_ext v)) ->
  exists y r, mt_uniform32 (getr (v_ext v)) = Ok (y, r) /\ draw getr setr v = Ok (y, with_rng setr v r) /\ w32 y /\ generated r.
Proof.
  intro G. destruct (C51_generator _ G) as (y & r & E & W & G'). exists y, r. split; auto. unfold draw. rewrite E. cbn [bind]. split; [reflexivity|]. auto.
Qed.
End Uniform.

(** The next number drawn, on which the results below depend. *)
(** uniform() gives any int; uniform(n) one between 0 and n; uniform(m, n) one between m and n (when n - m is an int). The numbers
    are determined by the state of the generator and the arguments, which gives the next state. *)
Theorem C51_uniform_int :
  forall X (getr : X -> mt) setr (v : vm X) args ra s rest L,
    called v args ra s rest L -> generated (getr (v_ext v)) -> Forall (fun o => exists i, o = OInt i /\ int32_range i) args ->
    forall lo hi,
      (args = [] /\ lo = - 2 ^ 31 /\ hi = 2 ^ 31 - 1) \/
      (exists n, args = [OInt n] /\ n <> -1 /\ lo = Z.min 0 n /\ hi = Z.max 0 n) \/
      (exists m n, args = [OInt m; OInt n] /\ int32_range (n - m) /\ n - m <> -1 /\ lo = Z.min m n /\ hi = Z.max m n) ->
    exists y r z v', mt_uniform32 (getr (v_ext v)) = Ok (y, r) /\
      rng_uniform getr setr v = Ok v' /\ gives (with_rng setr v r) ra s rest L (OInt z) v' /\ lo <= z <= hi.
Proof.
  intros X getr setr v args ra s rest L HC HG HA lo hi HK. destruct (draw_vm getr setr v HG) as (y & r & E & ED & W & G').
  pose proof (called_rng setr v args ra s rest L r HC) as HCR. pose proof HC as HC0. call_start HC. unfold rng_uniform. rewrite (lnum_ok _ _ _ HL). cbn [bind].
  assert (FIN : forall (w : vm X) z t, v_stacks w = t :: (OInt ra :: s) :: rest -> v_lsymts w = v_lsymts v -> v_state w = S_READY -> v_gsyms w = v_gsyms v ->
     v_heap w = v_heap v -> v_swstk w = v_swstk v -> v_str w = v_str v -> v_ext w = setr (v_ext v) r -> lo <= z <= hi ->
     exists v', vm_ret1 (push w (OInt z)) = Ok v' /\ gives (with_rng setr v r) ra s rest L (OInt z) v' /\ lo <= z <= hi).
  { intros w z t E1 E2 E3 E4 E5 E6 E7 E8 Hz.
    destruct (gives_ret1 (with_rng setr v r) (push w (OInt z)) (OInt z) t args ra s rest L HCR) as (v' & EV & GV & _); auto.
    - cbn. unfold stack. rewrite E1. reflexivity.
    - cbn. rewrite E7. auto.
    - exists v'. auto. }
  exists y, r. destruct HK as [(-> & -> & ->)|[(n & -> & Hn1 & -> & ->)|(m & n & -> & Hd & Hn1 & -> & ->)]].
  - change (zlen [self] - 1 =? 0) with true. cbv iota. rewrite ED. cbn [bind].
    assert (HR2 : - 2 ^ 31 <= sign32 y <= 2 ^ 31 - 1).
    { destruct W as [W1 W2]. unfold sign32, wrap32. rewrite Z.mod_small by lia. change (2 ^ 31) with 2147483648. change (2 ^ 32) with 4294967296 in *. destruct (y <? 2147483648) eqn:Ey; lia. }
    destruct (FIN (with_rng setr v r) (sign32 y) [] HS eq_refl HR eq_refl eq_refl eq_refl eq_refl eq_refl HR2) as (v' & A & B & C). exists (sign32 y), v'. auto.
  - change (zlen [self; OInt n] - 1 =? 0) with false. change (zlen [self; OInt n] - 1 =? 1) with true. cbv iota.
    rewrite (lload_ok v _ L 1 (OInt n) HL ltac:(lia) eq_refl). cbn [bind]. rewrite top_push. cbn [bind].
    assert (ED1 : draw getr setr (push v (OInt n)) = Ok (y, push (with_rng setr v r) (OInt n))) by (unfold draw in *; cbn [push v_ext set_stack set_stacks]; rewrite E; reflexivity).
    rewrite ED1. cbn [bind].
    assert (Hn : int32_range n) by (inversion HA as [|? ? (i & Ei & Hi) _]; inversion Ei; subst; auto).
    destruct (scale_range y n W Hn Hn1) as (t & ET & HP & HN & _). rewrite ET.
    assert (HZ : Z.min 0 n <= t <= Z.max 0 n) by (destruct (Z.lt_ge_cases n 0) as [H|H]; [specialize (HN ltac:(lia))|specialize (HP H)]; lia).
    destruct (FIN (push (with_rng setr v r) (OInt n)) t [OInt n]) as (v' & A & B & C); auto. { cbn. unfold stack. cbn. rewrite HS. reflexivity. }
    exists t, v'. auto.
  - change (zlen [self; OInt m; OInt n] - 1 =? 0) with false. change (zlen [self; OInt m; OInt n] - 1 =? 1) with false. change (zlen [self; OInt m; OInt n] - 1 =? 2) with true. cbv iota.
    rewrite (lload_ok v _ L 1 (OInt m) HL ltac:(lia) eq_refl). cbn [bind]. rewrite (lload_ok (push v (OInt m)) _ L 2 (OInt n) HL ltac:(lia) eq_refl). cbn [bind].
    change (stack_at (push (push v (OInt m)) (OInt n)) 2) with (@Ok obj (OInt m)). rewrite top_push. cbn [bind is_num andb].
    assert (ED1 : draw getr setr (push (push v (OInt m)) (OInt n)) = Ok (y, push (push (with_rng setr v r) (OInt m)) (OInt n))) by (unfold draw in *; cbn [push v_ext set_stack set_stacks]; rewrite E; reflexivity).
    rewrite ED1. cbn [bind uniform2].
    assert (Hm : int32_range m) by (inversion HA as [|? ? (i & Ei & Hi) _]; inversion Ei; subst; auto).
    assert (Hn : int32_range n) by (inversion HA as [|? ? _ HA2]; inversion HA2 as [|? ? (i & Ei & Hi) _]; inversion Ei; subst; auto).
    replace (int32_rangeb (n - m)) with true by (unfold int32_rangeb; destruct Hd; lia). cbn [bind].
    destruct (scale_range y (n - m) W Hd Hn1) as (t & ET & HP & HN & EW & (q & EQ)).
    assert (HZ : Z.min m n <= t + m <= Z.max m n) by (destruct (Z.lt_ge_cases (n - m) 0) as [H|H]; [specialize (HN ltac:(lia))|specialize (HP H)]; lia).
    assert (ES : sign32 (wrap64 (scale_int y (n - m) + wrap64 m)) = t + m).
    { rewrite EQ. transitivity (sign32 (t + m)); [|apply sign32_id; destruct Hm, Hn; unfold int32_range; lia]. unfold sign32.
      replace (wrap32 (wrap64 (t + q * 2 ^ 32 + wrap64 m))) with (wrap32 (t + m)); [reflexivity|]. unfold wrap32, wrap64.
      rewrite (Z.add_mod_idemp_r (t + q * 2 ^ 32)) by lia.
      replace (((t + q * 2 ^ 32 + m) mod 2 ^ 64) mod 2 ^ 32) with ((t + q * 2 ^ 32 + m) mod 2 ^ 32).
      2: { rewrite (Z.mod_eq _ (2 ^ 64)) by lia. replace (2 ^ 64) with (2 ^ 32 * 2 ^ 32) at 1 by reflexivity.
           set (k := (t + q * 2 ^ 32 + m) / 2 ^ 64). replace (t + q * 2 ^ 32 + m - 2 ^ 32 * 2 ^ 32 * k) with (t + q * 2 ^ 32 + m + (- 2 ^ 32 * k) * 2 ^ 32) by ring.
           rewrite Z.mod_add by lia. reflexivity. }
      replace (t + q * 2 ^ 32 + m) with (t + m + q * 2 ^ 32) by ring. rewrite Z.mod_add by lia. reflexivity. }
    rewrite ES. destruct (FIN (push (push (with_rng setr v r) (OInt m)) (OInt n)) (t + m) [OInt n; OInt m]) as (v' & A & B & C); auto. { cbn. unfold stack. cbn. rewrite HS. reflexivity. }
    exists (t + m), v'. auto.
Qed.
Print Assumptions C51_uniform_int.

(** Setting a seed through the API: the function gives nil, and the generator no longer depends on its earlier state. *)
Theorem C51_setseed_call :
  forall X (getr : X -> mt) setr (v : vm X) i ra s rest L,
    rng_place getr setr -> called v [OInt i] ra s rest L -> zlen (mt_state (getr (v_ext v))) = 624 ->
    exists v', rng_setseed getr setr v = Ok v' /\ v_state v' = S_READY /\ v_pc v' = ra /\ v_stacks v' = (ONil :: s) :: rest /\ v_lsymts v' = L /\
      generated (getr (v_ext v')) /\
      forall r0, zlen (mt_state r0) = 624 -> mt_setseed r0 (wrap32 i) = Ok (getr (v_ext v')).
Proof.
  intros X getr setr v i ra s rest L HP HC HZ. destruct (C51_seed _ _ (wrap32 i) HZ HZ) as (r & E & _ & G). call_start HC.
  unfold rng_setseed, lnum_assert. rewrite (lnum_ok _ _ _ HL). cbn [bind]. change (zlen [self; OInt i] - 1 =? 1) with true. cbv iota.
  rewrite (lload_ok v _ L 1 (OInt i) HL ltac:(lia) eq_refl). cbn [bind]. unfold type_assert. rewrite top_push. cbn [bind otype Z.eqb T_INT]. cbv iota.
  unfold top_int. rewrite top_push. cbn [bind].
  assert (E' : mt_setseed (getr (v_ext (push v (OInt i)))) (wrap32 i) = Ok r) by exact E. rewrite E'. cbn [bind].
  assert (HS' : v_stacks (set_ext (push v (OInt i)) (setr (v_ext (push v (OInt i))) r)) = [OInt i] :: (OInt ra :: s) :: rest).
  { cbn. unfold stack. rewrite HS. reflexivity. }
  rewrite (ret0_ok _ [OInt i] ra s rest _ L HS' HL). eexists. split; [reflexivity|]. cbn. repeat split; auto.
  - rewrite HP. exact G.
  - intros r0 H0. rewrite HP. destruct (C51_seed _ _ (wrap32 i) HZ H0) as (r' & A & B & _). rewrite E in A. inversion A; subst. exact B.
Qed.
Print Assumptions C51_setseed_call.

(** A VM whose extra state is the generator. *)
Definition mt0 : mt := mkMt (repeat 0 624) 0.
Definition seeded (seed : Z) : mt := match mt_setseed mt0 seed with Ok r => r | _ => mt0 end.
Fixpoint after_draws (n : nat) (r : mt) : mt :=
  match n with O => r | S m => match mt_uniform32 r with Ok (_, r') => after_draws m r' | _ => r end end.
Lemma seeded_generated seed : generated (seeded seed).
Proof. unfold seeded. destruct (C51_seed mt0 mt0 seed eq_refl eq_refl) as (r & -> & _ & G). exact G. Qed.
Lemma after_generated n : forall r, generated r -> generated (after_draws n r).
Proof. induction n as [|n IH]; intros r G; cbn [after_draws]; auto. destruct (C51_generator r G) as (y & r' & -> & _ & G'). apply IH, G'. Qed.
Definition rng_vm (r : mt) (args : list obj) : vm mt :=
  mkVm 7 7 [[]; [OInt 30; OInt 99]; []] [mkLs (map Some (ONil :: args)) false; mkLs [] false] (pnew 20) [] lib_sm [] S_READY E_NONE r.
Lemma rng_called r args : called (rng_vm r args) args 30 [OInt 99] [[]] [mkLs [] false].
Proof. constructor; try reflexivity. exists ONil. reflexivity. Qed.
Definition given {X} (r : res (vm X)) : option obj :=
  match r with Ok v => match v_state v with S_READY => hd_error (stack v) | _ => None end | _ => None end.
Definition rng_id (r : mt) : mt := r.
Definition rng_put (_ r : mt) : mt := r.
Lemma rng_id_place : rng_place rng_id rng_put. Proof. intros x r. reflexivity. Qed.
Example C51_nonvacuous :
  generated (seeded 42) /\ called (rng_vm (seeded 42) [OInt (-3); OInt 5]) [OInt (-3); OInt 5] 30 [OInt 99] [[]] [mkLs [] false] /\
  given (rng_uniform rng_id rng_put (rng_vm (seeded 42) [OInt 6])) = Some (OInt 3) /\
  given (rng_uniform rng_id rng_put (rng_vm (seeded 42) [OInt (-3); OInt 5])) = Some (OInt 1) /\
  given (rng_uniform rng_id rng_put (rng_vm (seeded 42) [OInt (-6)])) = Some (OInt (-3)).
Proof. split; [apply seeded_generated|]. split; [apply rng_called|]. repeat split; vm_compute; reflexivity. Qed.

(** uniform(-1) may give 1: with the seed 17095947, the ninth number is 1. *)
Theorem C51_minus_one_refuted :
  exists v : vm mt, called v [OInt (-1)] 30 [OInt 99] [[]] [mkLs [] false] /\ generated (v_ext v) /\
    given (rng_uniform rng_id rng_put v) = Some (OInt 1).
Proof.
  exists (rng_vm (after_draws 8 (seeded 17095947)) [OInt (-1)]). split; [apply rng_called|]. split; [apply after_generated, seeded_generated|].
  vm_compute. reflexivity.
Qed.
Print Assumptions C51_minus_one_refuted.
(** uniform(m, n) with n - m out of the range of int is undefined. *)
Theorem C51_wide_range_refuted :
  forall X (getr : X -> mt) setr (v : vm X) m n ra s rest L,
    called v [OInt m; OInt n] ra s rest L -> generated (getr (v_ext v)) -> ~ int32_range (n - m) -> rng_uniform getr setr v = UB.
Proof.
  intros X getr setr v m n ra s rest L HC HG HD. destruct (draw_vm getr setr v HG) as (y & r & E & _). call_start HC. unfold rng_uniform. rewrite (lnum_ok _ _ _ HL). cbn [bind].
  change (zlen [self; OInt m; OInt n] - 1 =? 0) with false. change (zlen [self; OInt m; OInt n] - 1 =? 1) with false. change (zlen [self; OInt m; OInt n] - 1 =? 2) with true. cbv iota.
  rewrite (lload_ok v _ L 1 (OInt m) HL ltac:(lia) eq_refl). cbn [bind]. rewrite (lload_ok (push v (OInt m)) _ L 2 (OInt n) HL ltac:(lia) eq_refl). cbn [bind].
  change (stack_at (push (push v (OInt m)) (OInt n)) 2) with (@Ok obj (OInt m)). rewrite top_push. cbn [bind is_num andb].
  assert (ED1 : draw getr setr (push (push v (OInt m)) (OInt n)) = Ok (y, push (push (with_rng setr v r) (OInt m)) (OInt n))) by (unfold draw in *; cbn [push v_ext set_stack set_stacks]; rewrite E; reflexivity).
  rewrite ED1. cbn [bind uniform2]. replace (int32_rangeb (n - m)) with false; [reflexivity|]. symmetry. apply not_true_is_false. intro H. apply HD.
  unfold int32_rangeb in H. unfold int32_range. lia.
Qed.
Print Assumptions C51_wide_range_refuted.
Example C51_wide_nonvacuous : called (rng_vm (seeded 1) [OInt (-2000000000); OInt 2000000000]) [OInt (-2000000000); OInt 2000000000] 30 [OInt 99] [[]] [mkLs [] false] /\
  ~ int32_range (2000000000 - -2000000000).
Proof. split; [apply rng_called|]. unfold int32_range. lia. Qed.

(** ** C81 *)
(** The numbers after a seed are not those of the published generator, which first gives 3499211612 for the seed 5489. *)
Theorem C81_sequence_refuted :
  exists r', mt_uniform32 (mt19937_seeded 5489) = Ok (3499211612, r') /\ exists r'', mt_uniform32 (seeded 5489) = Ok (31526908, r'').
Proof.
  destruct (mt_uniform32 (mt19937_seeded 5489)) as [[y r']| | |] eqn:E1; [|vm_compute in E1; discriminate..].
  destruct (mt_uniform32 (seeded 5489)) as [[z r'']| | |] eqn:E2; [|vm_compute in E2; discriminate..].
  exists r'. split.
  - f_equal. f_equal. assert (H : match mt_uniform32 (mt19937_seeded 5489) with Ok (y, _) => y | _ => 0 end = 3499211612) by (vm_compute; reflexivity). rewrite E1 in H. exact H.
  - exists r''. f_equal. f_equal. assert (H : match mt_uniform32 (seeded 5489) with Ok (y, _) => y | _ => 0 end = 31526908) by (vm_compute; reflexivity). rewrite E2 in H. exact H.
Qed.
Print Assumptions C81_sequence_refuted.
(** gaussian(x) always fails. *)
Theorem C81_gaussian_of_stddev_refuted :
  forall X (getr : X -> mt) setr noise accept gauss fuel (v : vm X) x ra s rest L,
    called v [x] ra s rest L -> a_number x = true ->
    exists v', rng_gaussian getr setr noise accept gauss fuel v = Ok v' /\ fails v' E_LNUM.
Proof.
  intros X getr setr noise accept gauss fuel v x ra s rest L HC HN. call_start HC. unfold rng_gaussian. rewrite (lnum_ok _ _ _ HL). cbn [bind].
  change (0 <? zlen [self; x] - 1) with true. cbv iota. rewrite (lload_ok v _ L 1 x HL ltac:(lia) eq_refl). cbn [bind]. rewrite top_push. cbn [bind].
  change (zlen [self; x] - 1 =? 2) with false. cbv iota.
  destruct x; try discriminate; (eexists; split; [reflexivity|split; reflexivity]).
Qed.
Print Assumptions C81_gaussian_of_stddev_refuted.
(** gaussian(x, y) does not depend on y. *)
Theorem C81_gaussian_mean_refuted :
  forall X (getr : X -> mt) setr noise accept gauss fuel (v w : vm X) x y z ra s rest L v',
    called v [x; y] ra s rest L -> called w [x; z] ra s rest L -> v_ext v = v_ext w -> a_number x = true ->
    rng_gaussian getr setr noise accept gauss fuel v = Ok v' -> v_state v' = S_READY ->
    exists w', rng_gaussian getr setr noise accept gauss fuel w = Ok w' /\ stack w' = stack v' /\ v_state w' = S_READY.
Proof.
  intros X getr setr noise accept gauss fuel v w x y z ra s rest L v' HC HW HE HN.
  destruct HC as [HS [self HL] HR]. destruct HW as [HSw [selfw HLw] HRw]. unfold rng_gaussian. rewrite (lnum_ok _ _ _ HL), (lnum_ok _ _ _ HLw). cbn [bind].
  change (0 <? zlen [self; x; y] - 1) with true. change (0 <? zlen [selfw; x; z] - 1) with true.
  change (zlen [self; x; y] - 1 =? 2) with true. change (zlen [selfw; x; z] - 1 =? 2) with true. cbv iota.
  rewrite (lload_ok v _ L 1 x HL ltac:(lia) eq_refl), (lload_ok w _ L 1 x HLw ltac:(lia) eq_refl). cbn [bind]. rewrite !top_push. cbn [bind].
  rewrite (lload_ok (push v x) _ L 1 x HL ltac:(lia) eq_refl), (lload_ok (push w x) _ L 1 x HLw ltac:(lia) eq_refl). cbn [bind]. rewrite !top_push. cbn [bind].
  assert (HB : forall n e1 (a b : vm X), v_ext a = e1 -> v_ext b = e1 ->
    match box_muller getr setr noise accept n a, box_muller getr setr noise accept n b with
    | Ok (n1, n2, a'), Ok (m1, m2, b') => n1 = m1 /\ n2 = m2 /\ exists e2, a' = set_ext a e2 /\ b' = set_ext b e2
    | Ok _, _ => False | _, _ => True end).
  { induction n as [|n IH]; intros e1 a b Ha Hb; cbn [box_muller]; auto. unfold draw. rewrite Ha, Hb. destruct (mt_uniform32 (getr e1)) as [[y1 r1]| | |]; cbn [bind]; auto.
    cbn [v_ext set_ext]. destruct (mt_uniform32 (getr (setr e1 r1))) as [[y2 r2]| | |]; cbn [bind]; auto.
    destruct (accept (noise y1) (noise y2)).
    - split; auto. split; auto. eexists. split; reflexivity.
    - specialize (IH _ (set_ext (set_ext a (setr e1 r1)) (setr (setr e1 r1) r2)) (set_ext (set_ext b (setr e1 r1)) (setr (setr e1 r1) r2)) eq_refl eq_refl).
      destruct (box_muller getr setr noise accept n _) as [[[n1 n2] a']| | |]; auto; destruct (box_muller getr setr noise accept n _) as [[[m1 m2] b']| | |]; auto. }
  assert (FIN : forall f g, gaussian_end getr setr noise accept gauss fuel (push (push v x) x) f g = Ok v' -> v_state v' = S_READY ->
    exists w', gaussian_end getr setr noise accept gauss fuel (push (push w x) x) f g = Ok w' /\ stack w' = stack v' /\ v_state w' = S_READY).
  { intros f g. unfold gaussian_end. specialize (HB fuel (v_ext v) (push (push v x) x) (push (push w x) x) eq_refl (eq_sym HE)).
    destruct (box_muller getr setr noise accept fuel (push (push v x) x)) as [[[n1 n2] a']| | |]; cbn [bind]; try discriminate.
    destruct (box_muller getr setr noise accept fuel (push (push w x) x)) as [[[m1 m2] b']| | |]; try contradiction. destruct HB as (-> & -> & e2 & -> & ->). cbn [bind].
    set (o := OFloat _).
    assert (H1 : v_stacks (push (set_ext (push (push v x) x) e2) o) = (o :: [x; x]) :: (OInt ra :: s) :: rest) by (cbn; unfold stack; cbn; rewrite HS; reflexivity).
    assert (H2 : v_stacks (push (set_ext (push (push w x) x) e2) o) = (o :: [x; x]) :: (OInt ra :: s) :: rest) by (cbn; unfold stack; cbn; rewrite HSw; reflexivity).
    rewrite (ret1_ok _ o [x; x] ra s rest _ L H1 HL), (ret1_ok _ o [x; x] ra s rest _ L H2 HLw). intros HV _. inversion HV; subst. eexists. split; [reflexivity|]. split; [reflexivity|exact HRw]. }
  destruct x; try discriminate; cbn [to_float]; apply FIN.
Qed.
Print Assumptions C81_gaussian_mean_refuted.
(** exponential(x) reads an empty stack. *)
Theorem C81_exponential_refuted :
  forall X (getr : X -> mt) setr expo (v : vm X) x ra s rest L,
    called v [x] ra s rest L -> rng_exponential getr setr expo v = UB.
Proof.
  intros X getr setr expo v x ra s rest L HC. call_start HC. unfold rng_exponential, lnum_assert. rewrite (lnum_ok _ _ _ HL). cbn [bind].
  change (zlen [self; x] - 1 =? 1) with true. cbv iota. unfold stack_at, stack. rewrite HS. reflexivity.
Qed.
Print Assumptions C81_exponential_refuted.
Example C81_nonvacuous :
  called (rng_vm (seeded 1) [OInt 2]) [OInt 2] 30 [OInt 99] [[]] [mkLs [] false] /\ a_number (OInt 2) = true /\
  (let g args := given (rng_gaussian rng_id rng_put (fun y => f_of_Z y) (fun _ _ => true) (fun mean _ _ _ => mean) 5 (rng_vm (seeded 1) args)) in
   g [OInt 2; OInt 100] = Some (OFloat (f_of_Z 2)) /\ g [OInt 2; OInt 0] = Some (OFloat (f_of_Z 2))).
Proof. split; [apply rng_called|]. split; [reflexivity|]. split; vm_compute; reflexivity. Qed.

(** ** C82 *)
Lemma f_floor_val f : valid_f32 f = true -> finite_f32 f = true -> f_floor f = Some (fval f / 2 ^ 149).
Proof.
  intros HV HF. destruct f as [s| | |s m e]; try discriminate; [reflexivity|].
  apply valid_canon in HV. pose proof (canon_digits _ _ HV) as (_ & He & _). cbn [f_floor fval]. f_equal.
  replace (if s then - (Zpos m * 2 ^ (e + 149)) else Zpos m * 2 ^ (e + 149)) with ((if s then Zneg m else Zpos m) * 2 ^ (e + 149)).
  2: { destruct s; [|reflexivity]. change (Zneg m) with (- Zpos m). ring. }
  generalize (if s then Zneg m else Zpos m) as a. intro a. destruct (0 <=? e) eqn:E.
  - rewrite pow_split by lia. rewrite Z.mul_assoc, Z.div_mul; [reflexivity|]. apply Z.pow_nonzero; lia.
  - assert (HX : 2 ^ 149 = 2 ^ (- e) * 2 ^ (e + 149)). { rewrite <- pow_split by lia. f_equal. lia. }
    rewrite HX. pose proof (pow_pos (- e) ltac:(lia)). pose proof (pow_pos (e + 149) ltac:(lia)).
    rewrite Z.div_mul_cancel_r by lia. reflexivity.
Qed.
Lemma fval_neg f : fval (fneg f) = - fval f.
Proof. destruct f as [[|]|[|]| |[|] m e]; try reflexivity; cbn [fneg SFopp fval negb]; lia. Qed.
Lemma valid_neg f : valid_f32 (fneg f) = valid_f32 f.
Proof. destruct f as [[|]|[|]| |[|] m e]; reflexivity. Qed.
Lemma f_ceil_val f : valid_f32 f = true -> finite_f32 f = true -> f_ceil f = Some (- (- fval f / 2 ^ 149)).
Proof.
  intros HV HF. unfold f_ceil. rewrite f_floor_val; [|rewrite valid_neg; auto|destruct f; auto]. rewrite fval_neg. reflexivity.
Qed.
Lemma f_round_val f : valid_f32 f = true -> finite_f32 f = true ->
  f_round f = Some (if fval f <? 0 then - ((2 * - fval f + 2 ^ 149) / 2 ^ 150) else (2 * fval f + 2 ^ 149) / 2 ^ 150).
Proof.
  intros HV HF. destruct f as [s| | |s m e]; try discriminate; [reflexivity|].
  apply valid_canon in HV. pose proof (canon_digits _ _ HV) as (_ & He & _). cbn [f_round fval]. f_equal.
  pose proof (pow_pos (e + 149) ltac:(lia)) as HP.
  assert (HA : (if 0 <=? e then Zpos m * 2 ^ e else (2 * Zpos m + 2 ^ (- e)) / 2 ^ (- e + 1)) = (2 * (Zpos m * 2 ^ (e + 149)) + 2 ^ 149) / 2 ^ 150).
  { change 150 with (149 + 1). rewrite (Z.pow_add_r 2 149 1) by lia. change (2 ^ 1) with 2. destruct (0 <=? e) eqn:E.
    - rewrite pow_split by lia. pose proof (pow_pos 149 ltac:(lia)). apply Z.div_unique with (2 ^ 149); lia.
    - assert (HX : 2 ^ 149 = 2 ^ (- e) * 2 ^ (e + 149)). { rewrite <- pow_split by lia. f_equal. lia. }
      rewrite HX. pose proof (pow_pos (- e) ltac:(lia)). rewrite Z.pow_add_r by lia. change (2 ^ 1) with 2.
      replace (2 * (Zpos m * 2 ^ (e + 149)) + 2 ^ (- e) * 2 ^ (e + 149)) with ((2 * Zpos m + 2 ^ (- e)) * 2 ^ (e + 149)) by ring.
      replace (2 ^ (- e) * 2 ^ (e + 149) * 2) with (2 ^ (- e) * 2 * 2 ^ (e + 149)) by ring. rewrite Z.div_mul_cancel_r by lia. reflexivity. }
  rewrite HA. assert (0 < Zpos m * 2 ^ (e + 149)) by lia. destruct s.
  - replace (- (Zpos m * 2 ^ (e + 149)) <? 0) with true by lia. rewrite Z.opp_involutive. reflexivity.
  - replace (Zpos m * 2 ^ (e + 149) <? 0) with false by lia. reflexivity.
Qed.
Local Opaque Z.pow.

(** A call of one of the functions of one argument. *)
Lemma one_number_gives {X} (v : vm X) o onf oni r ra s rest L : called v [o] ra s rest L ->
  match o with OFloat f => onf f = Ok r | OInt i => oni i = Ok r | _ => False end ->
  exists v', one_number v onf oni = Ok v' /\ gives v ra s rest L r v'.
Proof.
  intros HC HO. pose proof HC as HC0. call_start HC. unfold one_number, lnum_assert. rewrite (lnum_ok _ _ _ HL). cbn [bind].
  change (zlen [self; o] - 1 =? 1) with true. cbv iota. rewrite (lload_ok v _ L 1 o HL ltac:(lia) eq_refl). cbn [bind]. rewrite top_push. cbn [bind].
  destruct (gives_ret1 v (push (push v o) r) r [o] [o] ra s rest L HC0) as (v' & EV & GV & _); auto. { cbn. unfold stack. cbn. rewrite HS. reflexivity. }
  exists v'. destruct o; try contradiction; rewrite HO; cbn [bind]; auto.
Qed.
Lemma one_number_ub {X} (v : vm X) o onf oni ra s rest L : called v [o] ra s rest L ->
  match o with OFloat f => onf f = UB | OInt i => oni i = UB | _ => False end -> one_number v onf oni = UB.
Proof.
  intros HC HO. call_start HC. unfold one_number, lnum_assert. rewrite (lnum_ok _ _ _ HL). cbn [bind].
  change (zlen [self; o] - 1 =? 1) with true. cbv iota. rewrite (lload_ok v _ L 1 o HL ltac:(lia) eq_refl). cbn [bind]. rewrite top_push. cbn [bind].
  destruct o; try contradiction; rewrite HO; reflexivity.
Qed.

(** abs gives a number of the same type, with the absolute value. *)
Theorem C82_abs :
  forall X (v : vm X) o ra s rest L, called v [o] ra s rest L -> a_number o = true -> o <> OInt (- 2 ^ 31) ->
    exists r v', math_abs v = Ok v' /\ gives v ra s rest L r v' /\ otype r = otype o /\ num_value r = Z.abs (num_value o).
Proof.
  intros X v o ra s rest L HC HN HM. unfold math_abs. destruct o; try discriminate.
  - destruct (one_number_gives v (OInt z) (fun f => Ok (OFloat (fabs f))) (fun i => if i =? - 2 ^ 31 then UB else Ok (OInt (Z.abs i))) (OInt (Z.abs z)) ra s rest L HC) as (v' & E & G).
    { replace (z =? - 2 ^ 31) with false; [reflexivity|]. symmetry. apply Z.eqb_neq. intros ->. auto. }
    exists (OInt (Z.abs z)), v'. split; auto. split; auto. split; auto. cbn [num_value]. pose proof (pow_pos 149 ltac:(lia)). rewrite Z.abs_mul. f_equal.
  - destruct (one_number_gives v (OFloat f) (fun f => Ok (OFloat (fabs f))) (fun i => if i =? - 2 ^ 31 then UB else Ok (OInt (Z.abs i))) (OFloat (fabs f)) ra s rest L HC) as (v' & E & G); [reflexivity|].
    exists (OFloat (fabs f)), v'. split; auto. split; auto. split; auto. cbn [num_value]. destruct f as [b|[|]| |[|] m e]; cbn [fabs SFabs fval]; try reflexivity.
    + rewrite Z.abs_opp, Z.abs_mul. cbn [Z.abs]. f_equal. symmetry. apply Z.abs_eq, Z.pow_nonneg. lia.
    + rewrite Z.abs_mul. cbn [Z.abs]. f_equal. symmetry. apply Z.abs_eq, Z.pow_nonneg. lia.
Qed.
Print Assumptions C82_abs.
Theorem C82_abs_refuted :
  forall X (v : vm X) ra s rest L, called v [OInt (- 2 ^ 31)] ra s rest L -> math_abs v = UB.
Proof. intros X v ra s rest L HC. unfold math_abs. eapply one_number_ub; [exact HC|]. cbv beta iota. rewrite Z.eqb_refl. reflexivity. Qed.
Print Assumptions C82_abs_refuted.

(** floor, ceil and round give integers unchanged, and for a float the integer next to it (if it is an int): below, above,
    nearest (away from zero when two are). *)
Theorem C82_rounding :
  forall X (v : vm X) ra s rest L,
    (forall i, called v [OInt i] ra s rest L ->
       forall f, In f [math_floor; math_ceil; math_round] -> exists v', f v = Ok v' /\ gives v ra s rest L (OInt i) v') /\
    (forall f, called v [OFloat f] ra s rest L -> valid_f32 f = true -> finite_f32 f = true -> forall z, int32_range z ->
       (z * 2 ^ 149 <= fval f < (z + 1) * 2 ^ 149 -> exists v', math_floor v = Ok v' /\ gives v ra s rest L (OInt z) v') /\
       ((z - 1) * 2 ^ 149 < fval f <= z * 2 ^ 149 -> exists v', math_ceil v = Ok v' /\ gives v ra s rest L (OInt z) v') /\
       (2 * Z.abs (fval f - z * 2 ^ 149) < 2 ^ 149 \/ 2 * Z.abs (fval f - z * 2 ^ 149) = 2 ^ 149 /\ Z.abs (fval f) < Z.abs (z * 2 ^ 149) ->
         exists v', math_round v = Ok v' /\ gives v ra s rest L (OInt z) v')).
Proof.
  intros X v ra s rest L. pose proof (pow_pos 149 ltac:(lia)) as HU. split.
  - intros i HC f [<-|[<-|[<-|[]]]]; (eapply one_number_gives; [exact HC|reflexivity]).
  - intros f HC HV HF z Hz. assert (HZ : int32_rangeb z = true) by (unfold int32_rangeb; destruct Hz; lia).
    split; [|split]; intro HB; (eapply one_number_gives; [exact HC|]); cbv beta iota.
    + rewrite f_floor_val by auto. replace (fval f / 2 ^ 149) with z. { unfold fits. rewrite HZ. reflexivity. }
      apply Z.div_unique with (fval f - z * 2 ^ 149); lia.
    + rewrite f_ceil_val by auto. replace (- fval f / 2 ^ 149) with (- z). { unfold fits. rewrite Z.opp_involutive, HZ. reflexivity. }
      apply Z.div_unique with (z * 2 ^ 149 - fval f); lia.
    + rewrite f_round_val by auto.
      replace (if fval f <? 0 then - ((2 * - fval f + 2 ^ 149) / 2 ^ 150) else (2 * fval f + 2 ^ 149) / 2 ^ 150) with z. { unfold fits. rewrite HZ. reflexivity. }
      change 150 with (149 + 1). rewrite (Z.pow_add_r 2 149 1) by lia. change (2 ^ 1) with 2. set (U := 2 ^ 149) in *. clearbody U. clear - HB HU.
      destruct (fval f <? 0) eqn:E.
      * assert (H : - z = (2 * - fval f + U) / (U * 2)); [|lia]. apply Z.div_unique with (2 * (z * U) - 2 * fval f + U); [left|ring].
        destruct HB as [HB|[HB HT]]; [lia|]. assert (z <= 0) by nia. nia.
      * apply Z.div_unique with (2 * fval f + U - 2 * (z * U)); [left|ring]. destruct HB as [HB|[HB HT]]; [lia|]. assert (0 <= z) by nia. nia.
Qed.
Print Assumptions C82_rounding.
(** Out of the range of int they are undefined. *)
Theorem C82_rounding_refuted :
  forall X (v : vm X) f ra s rest L, called v [OFloat f] ra s rest L -> valid_f32 f = true ->
    finite_f32 f = false \/ 2 ^ 31 * 2 ^ 149 <= fval f \/ fval f <= - (2 ^ 31 + 1) * 2 ^ 149 ->
    forall g, In g [math_floor; math_ceil; math_round] -> g v = UB.
Proof.
  intros X v f ra s rest L HC HV HB g HG. pose proof (pow_pos 149 ltac:(lia)) as HU.
  destruct (finite_f32 f) eqn:HF.
  2: { assert (HN : f_floor f = None /\ f_ceil f = None /\ f_round f = None) by (destruct f as [b|[|]| |b m e]; try discriminate; repeat split; reflexivity).
       destruct HN as (E1 & E2 & E3). destruct HG as [<-|[<-|[<-|[]]]]; (eapply one_number_ub; [exact HC|]); cbv beta iota; rewrite ?E1, ?E2, ?E3; reflexivity. }
  assert (HK : forall z, ~ int32_range z -> (z' <- fits (Some z) ;; Ok (OInt z')) = UB).
  { intros z Hz. unfold fits. replace (int32_rangeb z) with false; [reflexivity|]. symmetry. apply not_true_is_false. intro H. apply Hz. unfold int32_rangeb in H. unfold int32_range. lia. }
  unfold int32_range in HK. set (T := 2 ^ 31) in *. assert (HT : 0 < T) by (apply pow_pos; lia). clearbody T. destruct HB as [HB|HB]; [discriminate|].
  destruct HG as [<-|[<-|[<-|[]]]]; (eapply one_number_ub; [exact HC|]); cbv beta iota.
  - rewrite f_floor_val by auto. apply HK. set (U := 2 ^ 149) in *. clearbody U. pose proof (Z.div_mod (fval f) U ltac:(lia)). pose proof (Z.mod_pos_bound (fval f) U HU). nia.
  - rewrite f_ceil_val by auto. apply HK. set (U := 2 ^ 149) in *. clearbody U. pose proof (Z.div_mod (- fval f) U ltac:(lia)). pose proof (Z.mod_pos_bound (- fval f) U HU). nia.
  - rewrite f_round_val by auto. apply HK. change 150 with (149 + 1). rewrite (Z.pow_add_r 2 149 1) by lia. change (2 ^ 1) with 2. set (U := 2 ^ 149) in *. clearbody U.
    destruct (fval f <? 0) eqn:E.
    + pose proof (Z.div_mod (2 * - fval f + U) (U * 2) ltac:(lia)). pose proof (Z.mod_pos_bound (2 * - fval f + U) (U * 2) ltac:(lia)). nia.
    + pose proof (Z.div_mod (2 * fval f + U) (U * 2) ltac:(lia)). pose proof (Z.mod_pos_bound (2 * fval f + U) (U * 2) ltac:(lia)). nia.
Qed.
Print Assumptions C82_rounding_refuted.

Lemma exact_cmp sc a b : exact_pair a b = true -> obj_cmp_by sc a b = Ok (intkeycmp (num_value a) (num_value b)).
Proof.
  pose proof (pow_pos 149 ltac:(lia)) as HP. unfold exact_pair, comparable.
  intro H. destruct a; try discriminate H; destruct b; try (exfalso; revert H; rewrite ?andb_false_r; discriminate); cbn [obj_cmp obj_cmp_by num_value]; f_equal.
  - symmetry. apply intkeycmp_scale; auto.
  - destruct (f_of_Z_exact z ltac:(lia)) as (V & N & <-). apply float_cmp_val; auto; destruct (valid_f32 f), (is_nan f); auto; try discriminate H; lia.
  - destruct (f_of_Z_exact z ltac:(lia)) as (V & N & <-). apply float_cmp_val; auto; destruct (valid_f32 f), (is_nan f); auto; try discriminate H; lia.
  - apply float_cmp_val; auto; destruct (valid_f32 f), (is_nan f), (valid_f32 f0), (is_nan f0); auto; try discriminate H; lia.
Qed.
Lemma pick_gives {X} sc first (v : vm X) a b c ra s rest L : called v [a; b] ra s rest L -> obj_cmp_by sc a b = Ok c ->
  exists v', math_pick sc first v = Ok v' /\ gives v ra s rest L (if first c then a else b) v'.
Proof.
  intros HC HO. pose proof HC as HC0. call_start HC. unfold math_pick, lnum_assert. rewrite (lnum_ok _ _ _ HL). cbn [bind].
  change (zlen [self; a; b] - 1 =? 2) with true. cbv iota. rewrite (lload_ok v _ L 1 a HL ltac:(lia) eq_refl). cbn [bind]. rewrite top_push. cbn [bind].
  rewrite (lload_ok (push v a) _ L 2 b HL ltac:(lia) eq_refl). cbn [bind]. rewrite top_push. cbn [bind]. rewrite HO. cbn [bind]. set (r := if first c then a else b).
  destruct (gives_ret1 v (push (push (push v a) b) r) r [b; a] [a; b] ra s rest L HC0) as (v' & EV & GV & _); auto. { cbn. unfold stack. cbn. rewrite HS. reflexivity. }
  exists v'. auto.
Qed.
(** min and max give one of the two numbers: the smaller, the larger. *)
Theorem C82_min_max :
  forall X strcmp (v : vm X) a b ra s rest L, called v [a; b] ra s rest L -> exact_pair a b = true ->
    (exists r v', math_min strcmp v = Ok v' /\ gives v ra s rest L r v' /\ (r = a \/ r = b) /\ num_value r = Z.min (num_value a) (num_value b)) /\
    (exists r v', math_max strcmp v = Ok v' /\ gives v ra s rest L r v' /\ (r = a \/ r = b) /\ num_value r = Z.max (num_value a) (num_value b)).
Proof.
  intros X strcmp v a b ra s rest L HC HX. pose proof (exact_cmp strcmp a b HX) as HO.
  split.
  - destruct (pick_gives strcmp (fun c => negb (c =? 1)) v a b _ ra s rest L HC HO) as (v' & E & G). eexists. exists v'. split; [exact E|]. split; [exact G|].
    unfold intkeycmp. destruct (num_value a <? num_value b) eqn:E1; [cbn; split; auto; lia|]. destruct (num_value a >? num_value b) eqn:E2; cbn; split; auto; lia.
  - destruct (pick_gives strcmp (fun c => 0 <=? c) v a b _ ra s rest L HC HO) as (v' & E & G). eexists. exists v'. split; [exact E|]. split; [exact G|].
    unfold intkeycmp. destruct (num_value a <? num_value b) eqn:E1; [cbn; split; auto; lia|]. destruct (num_value a >? num_value b) eqn:E2; cbn; split; auto; lia.
Qed.
Print Assumptions C82_min_max.
(** An integer is compared with a float after rounding it to a float: the minimum may be the larger of the two. *)
Theorem C82_min_mixed_refuted :
  exists (v : vm unit) f, called v [OInt 16777217; OFloat f] 30 [OInt 99] [[]] [mkLs [] false] /\ valid_f32 f = true /\
    fval f < 16777217 * 2 ^ 149 /\ given (math_min strcmp v) = Some (OInt 16777217).
Proof.
  exists (lib_vm [OInt 16777217; OFloat (f_of_Z 16777216)]), (f_of_Z 16777216). split; [apply lib_called|]. split; [vm_compute; reflexivity|].
  split; [vm_compute; reflexivity|]. vm_compute. reflexivity.
Qed.
Print Assumptions C82_min_mixed_refuted.

(** The functions with the number of arguments they want. *)
Definition math_functions {X} (fn : f32 -> f32) (fn2 : f32 -> f32 -> f32) (strcmp : list Z -> list Z -> Z) : list ((vm X -> res (vm X)) * Z) :=
  [(math_abs, 1); (math_floor, 1); (math_ceil, 1); (math_round, 1); (math_real fn, 1); (math_atan fn2, 2); (math_min strcmp, 2); (math_max strcmp, 2)].
(** A wrong number of arguments is an error, and so is an argument that is not a number (for min and max: see C17). *)
Theorem C82_checks :
  forall X fn fn2 strcmp f n (v : vm X) args ra s rest L, In (f, n) (math_functions fn fn2 strcmp) -> called v args ra s rest L ->
    (zlen args <> n -> exists v', f v = Ok v' /\ fails v' E_LNUM) /\
    (zlen args = n -> f <> math_min strcmp -> f <> math_max strcmp -> (exists o, In o args /\ a_number o = false) -> exists v', f v = Ok v' /\ fails v' E_TYPE).
Proof.
  intros X fn fn2 strcmp f n v args ra s rest L HF HC. call_start HC.
  assert (EN : lnum v = Ok (zlen args)) by (rewrite (lnum_ok _ _ _ HL), zlen_cons; f_equal; lia).
  assert (HA : forall k, zlen args <> n -> lnum_assert v n k = Ok (err v E_LNUM)).
  { intros k Hk. unfold lnum_assert. rewrite EN. cbn [bind]. replace (zlen args =? n) with false by lia. reflexivity. }
  split.
  - intro HN. assert (HE : f v = Ok (err v E_LNUM)). 2: { rewrite HE. eexists. split; [reflexivity|]. split; reflexivity. }
    cbn [In math_functions] in HF. decompose [or] HF; try contradiction; match goal with H : (_, _) = (f, n) |- _ => inversion H; subst; clear H end; apply HA; auto.
  - intros HN Hmin Hmax (o & HI & HO).
    assert (H1 : forall onf oni, n = 1 -> exists v', one_number v onf oni = Ok v' /\ fails v' E_TYPE).
    { intros onf oni Hn. subst n. destruct args as [|o1 [|]]; try (unfold zlen in Hn; cbn in Hn; lia). destruct HI as [->|[]]. unfold one_number, lnum_assert. rewrite EN. cbn [bind].
      change (zlen [o] =? 1) with true. cbv iota. rewrite (lload_ok v _ L 1 o HL ltac:(lia) eq_refl). cbn [bind]. rewrite top_push. cbn [bind].
      destruct o; try discriminate; (eexists; split; [reflexivity|split; reflexivity]). }
    cbn [In math_functions] in HF. decompose [or] HF; try contradiction; match goal with H : (_, _) = (f, n) |- _ => inversion H; subst; clear H end; try congruence; try (apply H1; congruence).
    clear H1. destruct args as [|a [|b [|]]]; try (unfold zlen in *; cbn in *; lia). unfold math_atan, lnum_assert. rewrite EN. cbn [bind].
    change (zlen [a; b] =? 2) with true. cbv iota. rewrite (lload_ok v _ L 1 a HL ltac:(lia) eq_refl). cbn [bind]. rewrite top_push. cbn [bind].
    rewrite (lload_ok (push v a) _ L 2 b HL ltac:(lia) eq_refl). cbn [bind]. rewrite top_push. cbn [bind].
    destruct (a_number a) eqn:EA.
    + assert (b = o) by (destruct HI as [->|[->|[]]]; congruence). subst o. destruct a; try discriminate; cbn [to_float]; destruct b; try discriminate; (eexists; split; [reflexivity|split; reflexivity]).
    + destruct a; try discriminate; (eexists; split; [reflexivity|split; reflexivity]).
Qed.
Print Assumptions C82_checks.
(** log, exp, sin ... give a float: the value of the C function. *)
Theorem C82_real_functions :
  forall X fn fn2 (v : vm X) ra s rest L,
    (forall f, called v [OFloat f] ra s rest L -> exists v', math_real fn v = Ok v' /\ gives v ra s rest L (OFloat (fn f)) v') /\
    (forall i, called v [OInt i] ra s rest L -> exists v', math_real fn v = Ok v' /\ gives v ra s rest L (OFloat (fn (f_of_Z i))) v') /\
    (forall y x, called v [OFloat y; OFloat x] ra s rest L -> exists v', math_atan fn2 v = Ok v' /\ gives v ra s rest L (OFloat (fn2 y x)) v').
Proof.
  intros X fn fn2 v ra s rest L. split; [|split].
  - intros f HC. eapply one_number_gives; [exact HC|reflexivity].
  - intros i HC. eapply one_number_gives; [exact HC|reflexivity].
  - intros y x HC. pose proof HC as HC0. call_start HC. unfold math_atan, lnum_assert. rewrite (lnum_ok _ _ _ HL). cbn [bind].
    change (zlen [self; OFloat y; OFloat x] - 1 =? 2) with true. cbv iota. rewrite (lload_ok v _ L 1 (OFloat y) HL ltac:(lia) eq_refl). cbn [bind]. rewrite top_push. cbn [bind to_float].
    rewrite (lload_ok (push v (OFloat y)) _ L 2 (OFloat x) HL ltac:(lia) eq_refl). cbn [bind]. rewrite top_push. cbn [bind to_float].
    destruct (gives_ret1 v (push (push (push v (OFloat y)) (OFloat x)) (OFloat (fn2 y x))) (OFloat (fn2 y x)) [OFloat x; OFloat y] [OFloat y; OFloat x] ra s rest L HC0) as (v' & EV & GV & _); auto.
    { cbn. unfold stack. cbn. rewrite HS. reflexivity. } exists v'. auto.
Qed.
Print Assumptions C82_real_functions.
(** The names the documentation gives to the arc tangent and to pi are not those registered. *)
Theorem C82_names_refuted : ~ In (bs "atan2") math_names /\ ~ In (bs "PI") math_names.
Proof. split; intro H; cbn in H; decompose [or] H; try discriminate; auto. Qed.
Print Assumptions C82_names_refuted.
(** The requirement C40 makes on C functions is met by these functions and those of math.rng. *)
Theorem C82_frames :
  forall X fn fn2 strcmp (getr : X -> mt) setr noise accept gauss fuel expo f,
    In f (map fst (math_functions fn fn2 strcmp) ++ [rng_setseed getr setr; rng_uniform getr setr; rng_gaussian getr setr noise accept gauss fuel; rng_exponential getr setr expo]) ->
    c_function_ok f.
Proof.
  intros X fn fn2 strcmp getr setr noise accept gauss fuel expo f HF.
  assert (HD : forall ra s rest L (w w' : vm X) y, within ra s rest L w -> draw getr setr w = Ok (y, w') -> within ra s rest L w').
  { intros ra s rest L w w' y HW H. unfold draw in H. destruct (mt_uniform32 _) as [[y' r]| | |]; cbn [bind] in H; inversion H; subst. exact HW. }
  assert (H1 : forall ra s rest L onf oni (w : vm X), within ra s rest L w -> ends ra s rest L (one_number w onf oni)).
  { intros ra s rest L onf oni w HW. unfold one_number. ends_tac. }
  cbn [In math_functions map fst app] in HF. decompose [or] HF; try contradiction; clear HF; match goal with H : _ = f |- _ => rewrite <- H; clear H end.
  - c_fun (@math_abs X). apply H1; auto.
  - c_fun (@math_floor X). apply H1; auto.
  - c_fun (@math_ceil X). apply H1; auto.
  - c_fun (@math_round X). apply H1; auto.
  - c_fun (@math_real X fn). apply H1; auto.
  - c_fun (@math_atan X fn2). unfold math_atan, to_float. ends_tac.
  - c_fun (@math_min X strcmp). unfold math_min, math_pick. ends_tac.
  - c_fun (@math_max X strcmp). unfold math_max, math_pick. ends_tac.
  - c_fun (rng_setseed getr setr). unfold rng_setseed. ends_tac. match goal with |- within _ _ _ _ (set_ext ?w _) => assert (HWW : within ra s rest L w) by ends_tac; exact HWW end.
  - c_fun (rng_uniform getr setr). unfold rng_uniform. ends_tac; (eapply HD; [|eassumption]; ends_tac).
  - c_fun (rng_gaussian getr setr noise accept gauss fuel). 
    assert (HB : forall n (w w' : vm X) a b, within ra s rest L w -> box_muller getr setr noise accept n w = Ok (a, b, w') -> within ra s rest L w').
    { induction n as [|n IH]; intros w w' a b HWw H2; cbn [box_muller] in H2; [discriminate|].
      destruct (draw getr setr w) as [[y1 v1]| | |] eqn:E1; cbn [bind] in H2; try discriminate. destruct (draw getr setr v1) as [[y2 v2]| | |] eqn:E2; cbn [bind] in H2; try discriminate.
      assert (HW2 : within ra s rest L v2) by (eapply HD; [eapply HD; [exact HWw|exact E1]|exact E2]).
      destruct (accept _ _); [inversion H2; subst; exact HW2|eapply IH; eauto]. }
    unfold rng_gaussian, to_float, gaussian_end. ends_tac; (eapply HB; [|eassumption]; ends_tac).
  - c_fun (rng_exponential getr setr expo). unfold rng_exponential, to_float. ends_tac; (eapply HD; [|eassumption]; ends_tac).
Qed.
Print Assumptions C82_frames.
(** -2.5 and its neighbours; mixed minimum; errors. *)
Definition minus_2_5 : f32 := fdiv (f_of_Z (-5)) (f_of_Z 2).
Example C82_nonvacuous :
  valid_f32 minus_2_5 = true /\ finite_f32 minus_2_5 = true /\ called (lib_vm [OFloat minus_2_5]) [OFloat minus_2_5] 30 [OInt 99] [[]] [mkLs [] false] /\
  given (math_floor (lib_vm [OFloat minus_2_5])) = Some (OInt (-3)) /\ given (math_ceil (lib_vm [OFloat minus_2_5])) = Some (OInt (-2)) /\
  given (math_round (lib_vm [OFloat minus_2_5])) = Some (OInt (-3)) /\
  given (math_floor (lib_vm [OFloat (f_of_Z 3000000000)])) = None /\
  exact_pair (OInt (-2)) (OFloat minus_2_5) = true /\ given (math_min strcmp (lib_vm [OInt (-2); OFloat minus_2_5])) = Some (OFloat minus_2_5) /\
  given (math_max strcmp (lib_vm [OInt (-2); OFloat minus_2_5])) = Some (OInt (-2)) /\ given (math_abs (lib_vm [OInt (-7)])) = Some (OInt 7) /\
  a_number (OStr 0 (bs "buzz")) = false /\ given (math_floor (lib_vm [OStr 0 (bs "buzz")])) = None.
Proof. split; [vm_compute; reflexivity|]. split; [vm_compute; reflexivity|]. split; [apply lib_called|]. repeat split; vm_compute; reflexivity. Qed.
