From Verif Require Import Base ListLemmas Float Msg.

Lemma byte_at_mid pre l post i : 0 <= i < zlen l ->
  byte_at (pre ++ l ++ post) (zlen pre + i) = Ok (nth (Z.to_nat i) l 0).
Proof.
  intro Hi. unfold byte_at. rewrite !zlen_app. pose proof (zlen_nonneg pre). pose proof (zlen_nonneg post).
  destruct ((0 <=? zlen pre + i) && (zlen pre + i <? zlen pre + (zlen l + zlen post))) eqn:E; [|lia].
  f_equal. unfold zlen in *. rewrite app_nth2 by lia. rewrite app_nth1 by lia. f_equal. lia.
Qed.

Lemma byte_at_ok buf pos : 0 <= pos < zlen buf -> exists b, byte_at buf pos = Ok b /\ In b buf.
Proof.
  intro H. unfold byte_at. destruct ((0 <=? pos) && (pos <? zlen buf)) eqn:E; [|lia].
  eexists. split; [reflexivity|]. apply nth_In. unfold zlen in *. lia.
Qed.

Lemma u8_roundtrip pre post x : 0 <= x < 2 ^ 8 ->
  ser_u8 pre x = pre ++ [x] /\ de_u8 (pre ++ [x] ++ post) (zlen pre) = Ok (Some (x, zlen pre + 1)).
Proof.
  intro Hx. split.
  - unfold ser_u8. rewrite Z.mod_small by lia. reflexivity.
  - unfold de_u8. rewrite !zlen_app. pose proof (zlen_nonneg post).
    assert (zlen [x] = 1) by reflexivity.
    destruct (zlen pre + 1 >? zlen pre + (zlen [x] + zlen post)) eqn:E; [lia|].
    pose proof (byte_at_mid pre [x] post 0 ltac:(lia)) as HB. rewrite Z.add_0_r in HB. rewrite HB. reflexivity.
Qed.

Definition enc16 (x : Z) : list Z := [x / 256; x mod 256].
Definition enc32 (x : Z) : list Z := [x / 16777216; x / 65536 mod 256; x / 256 mod 256; x mod 256].

(** Arithmetic of base-256 digits, kept away from the non-linear part of lia. *)
Lemma dm (q r k : Z) : 0 <= r < k -> (q * k + r) / k = q /\ (q * k + r) mod k = r.
Proof.
  intro H. split.
  - symmetry. apply (Z.div_unique _ _ _ r); lia.
  - symmetry. apply (Z.mod_unique _ _ q r); lia.
Qed.
Definition byte (b : Z) : Prop := 0 <= b < 256.
Definition num4 (b3 b2 b1 b0 : Z) : Z := ((b3 * 256 + b2) * 256 + b1) * 256 + b0.
Ltac Zify.zify_post_hook ::= idtac.
Lemma num4_split x : 0 <= x < 2 ^ 32 -> exists b3 b2 b1 b0,
  byte b3 /\ byte b2 /\ byte b1 /\ byte b0 /\ x = num4 b3 b2 b1 b0.
Proof.
  intro H. exists (x / 256 / 256 / 256), ((x / 256 / 256) mod 256), ((x / 256) mod 256), (x mod 256).
  pose proof (Z.div_mod x 256 ltac:(lia)). pose proof (Z.mod_pos_bound x 256 ltac:(lia)).
  pose proof (Z.div_mod (x / 256) 256 ltac:(lia)). pose proof (Z.mod_pos_bound (x / 256) 256 ltac:(lia)).
  pose proof (Z.div_mod (x / 256 / 256) 256 ltac:(lia)). pose proof (Z.mod_pos_bound (x / 256 / 256) 256 ltac:(lia)).
  change (2 ^ 32) with 4294967296 in H. unfold byte, num4. splits; try lia.
Qed.
Lemma num4_digits b3 b2 b1 b0 : byte b3 -> byte b2 -> byte b1 -> byte b0 ->
  num4 b3 b2 b1 b0 mod 256 = b0 /\ num4 b3 b2 b1 b0 / 256 mod 256 = b1 /\
  num4 b3 b2 b1 b0 / 65536 mod 256 = b2 /\ num4 b3 b2 b1 b0 / 16777216 = b3 /\
  num4 b3 b2 b1 b0 / 16777216 mod 256 = b3 /\ 0 <= num4 b3 b2 b1 b0 < 2 ^ 32.
Proof.
  unfold byte, num4. intros H3 H2 H1 H0.
  assert (E1 : (((b3 * 256 + b2) * 256 + b1) * 256 + b0) / 256 = (b3 * 256 + b2) * 256 + b1) by (apply dm; lia).
  assert (E2 : ((b3 * 256 + b2) * 256 + b1) / 256 = b3 * 256 + b2) by (apply dm; lia).
  assert (E3 : (b3 * 256 + b2) / 256 = b3) by (apply dm; lia).
  assert (E4 : forall z, z / 65536 = z / 256 / 256) by (intro; rewrite Z.div_div by lia; reflexivity).
  assert (E5 : forall z, z / 16777216 = z / 256 / 256 / 256) by (intro; rewrite !Z.div_div by lia; reflexivity).
  rewrite E4, !E5, E1, E2, E3. change (2 ^ 32) with 4294967296.
  splits; try (apply dm; lia); try lia; try (apply Z.mod_small; lia).
Qed.
Lemma swap32_num4 b3 b2 b1 b0 : byte b3 -> byte b2 -> byte b1 -> byte b0 ->
  swap32 (num4 b3 b2 b1 b0) = num4 b0 b1 b2 b3.
Proof.
  intros H3 H2 H1 H0. destruct (num4_digits b3 b2 b1 b0 H3 H2 H1 H0) as (D0 & D1 & D2 & D3 & D4 & _).
  unfold swap32. rewrite D0, D1, D2, D4. unfold num4. lia.
Qed.

Lemma ser_u16_enc buf x : 0 <= x < 2 ^ 16 -> ser_u16 buf x = buf ++ enc16 x.
Proof.
  intro Hx. unfold ser_u16, ser_u16_h, mem16, hton16, swap16, enc16, wrap16. f_equal.
  rewrite (Z.mod_small x (2 ^ 16)) by lia. change (2 ^ 16) with 65536 in Hx.
  pose proof (Z.div_mod x 256 ltac:(lia)). pose proof (Z.mod_pos_bound x 256 ltac:(lia)).
  rewrite (Z.mod_small (x / 256)) by lia.
  destruct (dm (x mod 256) (x / 256) 256 ltac:(lia)) as [E1 E2]. rewrite E1, E2.
  rewrite (Z.mod_small (x mod 256)) by lia. reflexivity.
Qed.
Lemma ser_u32_enc buf x : 0 <= x < 2 ^ 32 -> ser_u32 buf x = buf ++ enc32 x.
Proof.
  intro Hx. unfold ser_u32, ser_u32_h, mem32, hton32, enc32, wrap32. f_equal.
  rewrite (Z.mod_small x (2 ^ 32)) by lia.
  destruct (num4_split x Hx) as (b3 & b2 & b1 & b0 & H3 & H2 & H1 & H0 & ->).
  rewrite swap32_num4 by auto.
  destruct (num4_digits b3 b2 b1 b0 H3 H2 H1 H0) as (D0 & D1 & D2 & D3 & D4 & _).
  destruct (num4_digits b0 b1 b2 b3 H0 H1 H2 H3) as (D0' & D1' & D2' & D3' & D4' & _).
  rewrite D0, D1, D2, D3, D0', D1', D2', D4'. reflexivity.
Qed.

Lemma de_u16_enc pre post x : 0 <= x < 2 ^ 16 ->
  de_u16 (pre ++ enc16 x ++ post) (zlen pre) = Ok (Some (x, zlen pre + 2)).
Proof.
  intro Hx. unfold de_u16, de_u16_h. rewrite !zlen_app. pose proof (zlen_nonneg post).
  assert (HL : zlen (enc16 x) = 2) by reflexivity.
  destruct (zlen pre + 2 >? zlen pre + (zlen (enc16 x) + zlen post)) eqn:E; [lia|].
  pose proof (byte_at_mid pre (enc16 x) post 0 ltac:(lia)) as HB. rewrite Z.add_0_r in HB. rewrite HB.
  rewrite (byte_at_mid pre (enc16 x) post 1) by lia. cbn [bind].
  do 3 f_equal. change (nth (Z.to_nat 0) (enc16 x) 0) with (x / 256).
  change (nth (Z.to_nat 1) (enc16 x) 0) with (x mod 256). unfold hton16, swap16, wrap16.
  change (2 ^ 16) with 65536 in *.
  pose proof (Z.div_mod x 256 ltac:(lia)). pose proof (Z.mod_pos_bound x 256 ltac:(lia)).
  rewrite (Z.mod_small (x / 256 + x mod 256 * 256)) by lia.
  replace (x / 256 + x mod 256 * 256) with (x mod 256 * 256 + x / 256) by lia.
  destruct (dm (x mod 256) (x / 256) 256 ltac:(lia)) as [E1 E2]. rewrite E1, E2.
  rewrite (Z.mod_small (x mod 256)) by lia. lia.
Qed.

Lemma de_u32_enc pre post x : 0 <= x < 2 ^ 32 ->
  de_u32 (pre ++ enc32 x ++ post) (zlen pre) = Ok (Some (x, zlen pre + 4)).
Proof.
  intro Hx. unfold de_u32, de_u32_h. rewrite !zlen_app. pose proof (zlen_nonneg post).
  assert (HL : zlen (enc32 x) = 4) by reflexivity.
  destruct (zlen pre + 4 >? zlen pre + (zlen (enc32 x) + zlen post)) eqn:E; [lia|].
  pose proof (byte_at_mid pre (enc32 x) post 0 ltac:(lia)) as HB. rewrite Z.add_0_r in HB. rewrite HB.
  rewrite (byte_at_mid pre (enc32 x) post 1) by lia.
  rewrite (byte_at_mid pre (enc32 x) post 2) by lia.
  rewrite (byte_at_mid pre (enc32 x) post 3) by lia. cbn [bind].
  do 3 f_equal.
  change (nth (Z.to_nat 0) (enc32 x) 0) with (x / 16777216).
  change (nth (Z.to_nat 1) (enc32 x) 0) with (x / 65536 mod 256).
  change (nth (Z.to_nat 2) (enc32 x) 0) with (x / 256 mod 256).
  change (nth (Z.to_nat 3) (enc32 x) 0) with (x mod 256).
  destruct (num4_split x Hx) as (b3 & b2 & b1 & b0 & H3 & H2 & H1 & H0 & ->).
  destruct (num4_digits b3 b2 b1 b0 H3 H2 H1 H0) as (D0 & D1 & D2 & D3 & D4 & _).
  rewrite D0, D1, D2, D3. unfold hton32, wrap32.
  replace (b3 + b2 * 256 + b1 * 65536 + b0 * 16777216) with (num4 b0 b1 b2 b3) by (unfold num4; lia).
  destruct (num4_digits b0 b1 b2 b3 H0 H1 H2 H3) as (_ & _ & _ & _ & _ & HR).
  rewrite Z.mod_small by exact HR. apply swap32_num4; auto.
Qed.
Ltac Zify.zify_post_hook ::= Z.div_mod_to_equations.

(** Strings. *)
Lemma cstr_id s : Forall (fun b => b <> 0) s -> cstr s = s.
Proof. induction 1; cbn; auto. destruct (x =? 0) eqn:E; [lia|]. congruence. Qed.

Lemma string_roundtrip pre post s : zlen s < 65536 -> Forall (fun b => b <> 0) s ->
  zlen pre + zlen s + zlen post + 2 < 2 ^ 32 ->
  exists enc, ser_string pre s = pre ++ enc /\ zlen enc = zlen s + 2 /\
    de_string (pre ++ enc ++ post) (zlen pre) = Ok (Some (s, zlen pre + zlen enc)).
Proof.
  intros Hl Hs Hsz. exists (enc16 (zlen s) ++ s). pose proof (zlen_nonneg s). pose proof (zlen_nonneg pre).
  pose proof (zlen_nonneg post).
  assert (HL : zlen (enc16 (zlen s)) = 2) by reflexivity. splits.
  - unfold ser_string. rewrite ser_u16_enc by lia. rewrite <- app_assoc. reflexivity.
  - rewrite zlen_app. lia.
  - unfold de_string. rewrite !zlen_app, <- !app_assoc.
    destruct (zlen pre + 2 >? _) eqn:E; [lia|].
    rewrite de_u16_enc by lia. cbn [bind].
    unfold wrap32. rewrite Z.mod_small by lia.
    destruct (zlen pre + 2 + zlen s >? _) eqn:E2; [lia|].
    unfold read_bytes. rewrite !zlen_app.
    destruct ((0 <=? zlen pre + 2) && _) eqn:E3; [|lia]. cbn [bind].
    do 3 f_equal; [|lia].
    replace (pre ++ enc16 (zlen s) ++ s ++ post) with ((pre ++ enc16 (zlen s)) ++ s ++ post) by (rewrite <- !app_assoc; auto).
    replace (Z.to_nat (zlen pre + 2)) with (length (pre ++ enc16 (zlen s))).
    2:{ rewrite app_length. unfold zlen, enc16. cbn [length]. lia. }
    rewrite skipn_len_app. unfold zlen. rewrite Nat2Z.id, firstn_len_app. apply cstr_id; auto.
Qed.

Lemma string_too_long pre post s : zlen s = 65536 -> zlen pre + zlen s + zlen post + 2 < 2 ^ 32 ->
  de_string (ser_string pre s ++ post) (zlen pre) = Ok (Some ([], zlen pre + 2)).
Proof.
  intros Hl Hsz. pose proof (zlen_nonneg post). pose proof (zlen_nonneg pre). unfold ser_string.
  assert (HE : ser_u16 pre (zlen s) = pre ++ enc16 0).
  { unfold ser_u16, ser_u16_h. rewrite Hl. reflexivity. }
  rewrite HE, <- !app_assoc. unfold de_string.
  assert (HL : zlen (enc16 0) = 2) by reflexivity. rewrite !zlen_app.
  destruct (zlen pre + 2 >? _) eqn:E; [lia|]. rewrite de_u16_enc by lia. cbn [bind].
  unfold wrap32. rewrite Z.add_0_r, Z.mod_small by lia. destruct (zlen pre + 2 >? _) eqn:E2; [lia|].
  unfold read_bytes. destruct ((0 <=? _) && _) eqn:E3; [|rewrite !zlen_app in E3; lia]. reflexivity.
Qed.

(** In-bounds decoding. *)
Definition good_pos {A} (buf : payload) (pos : Z) (r : res (option (A * Z))) : Prop :=
  match r with
  | Ok None => True
  | Ok (Some (_, p)) => pos < p <= zlen buf
  | _ => False
  end.

Ltac bytes := repeat match goal with
  | |- context[byte_at ?b ?p] => let Hb := fresh in destruct (byte_at_ok b p ltac:(lia)) as (? & Hb & _); rewrite Hb; cbn [bind] end.

Lemma de_u8_bounds buf pos : 0 <= pos -> good_pos buf pos (de_u8 buf pos).
Proof. intro H. unfold de_u8. destruct (_ >? _) eqn:E; cbn; auto. bytes. cbn. lia. Qed.
Lemma de_u16_bounds buf pos : 0 <= pos -> good_pos buf pos (de_u16 buf pos).
Proof. intro H. unfold de_u16, de_u16_h. destruct (_ >? _) eqn:E; cbn; auto. bytes. cbn. lia. Qed.
Lemma de_u32_bounds buf pos : 0 <= pos -> good_pos buf pos (de_u32 buf pos).
Proof. intro H. unfold de_u32, de_u32_h. destruct (_ >? _) eqn:E; cbn; auto. bytes. cbn. lia. Qed.

Lemma de_u16_val buf pos v p : de_u16 buf pos = Ok (Some (v, p)) -> 0 <= v < 65536 /\ p = pos + 2.
Proof.
  unfold de_u16, de_u16_h. destruct (_ >? _); [discriminate|].
  destruct (byte_at buf pos) as [b0| | |]; cbn [bind]; try discriminate.
  destruct (byte_at buf (pos + 1)) as [b1| | |]; cbn [bind]; try discriminate.
  intro HH. inversion HH; subst. split; auto. unfold hton16, swap16, wrap16. lia.
Qed.

Lemma de_string_bounds buf pos : 0 <= pos -> zlen buf < 2 ^ 32 - 65536 -> good_pos buf pos (de_string buf pos).
Proof.
  intros H HS. unfold de_string. destruct (pos + 2 >? zlen buf) eqn:E; cbn; auto.
  pose proof (de_u16_bounds buf pos H) as HB. destruct (de_u16 buf pos) as [[[len p1]|]| | |] eqn:E1; cbn in HB; try tauto.
  2:{ exfalso. unfold de_u16, de_u16_h in E1. rewrite E in E1. revert E1. bytes. discriminate. }
  apply de_u16_val in E1 as [Hl ->]. cbn [bind]. unfold wrap32. rewrite Z.mod_small by lia.
  destruct (pos + 2 + len >? zlen buf) eqn:E2; cbn; auto. unfold read_bytes.
  destruct ((0 <=? _) && _) eqn:E3; [|lia]. cbn. lia.
Qed.

Lemma swap32_rng x : 0 <= hton32 true x < 2 ^ 32.
Proof.
  unfold hton32, swap32. pose proof (Z.mod_pos_bound x 256 ltac:(lia)).
  pose proof (Z.mod_pos_bound (x / 256) 256 ltac:(lia)). pose proof (Z.mod_pos_bound (x / 65536) 256 ltac:(lia)).
  pose proof (Z.mod_pos_bound (x / 16777216) 256 ltac:(lia)). change (2 ^ 32) with 4294967296.
  generalize dependent (x mod 256); generalize dependent (x / 256 mod 256);
  generalize dependent (x / 65536 mod 256); generalize dependent (x / 16777216 mod 256). lia.
Qed.

Lemma de_float_bounds buf pos : 0 <= pos ->
  match de_float buf pos with
  | Ok None => zlen buf < pos + 8
  | Ok (Some (_, p)) => p = pos + 8 /\ p <= zlen buf
  | UB => exists e, de_u32 buf pos = Ok (Some (2 ^ 31, e))
  | _ => False
  end.
Proof.
  intro H. unfold de_float. destruct (pos + 8 >? zlen buf) eqn:E; [lia|].
  assert (HD : forall p, 0 <= p -> p + 4 <= zlen buf -> exists v, de_u32 buf p = Ok (Some (v, p + 4)) /\ 0 <= v < 2 ^ 32).
  { intros p Hp Hle. unfold de_u32, de_u32_h. destruct (p + 4 >? zlen buf) eqn:E2; [lia|]. bytes.
    eexists. split; [reflexivity|]. apply swap32_rng. }
  destruct (HD pos H ltac:(lia)) as (v1 & E1 & Hv1). rewrite E1. cbn [bind].
  destruct (HD (pos + 4) ltac:(lia) ltac:(lia)) as (v2 & E2 & Hv2). rewrite E2. cbn [bind].
  unfold float_of_mant_exp. destruct (sign32 v1 =? 0); cbn [bind]; [lia|].
  destruct (sign32 v1 =? - 2 ^ 31) eqn:E3; cbn [bind]; [|lia].
  exists (pos + 4). do 2 f_equal. f_equal. unfold sign32, wrap32 in E3.
  rewrite Z.mod_small in E3 by lia. destruct (v1 <? 2 ^ 31) eqn:E4; lia.
Qed.

(** On a big-endian host decoding does not invert encoding. *)
Lemma big_endian_wrong : ser_u16_h false [] 1 = [0; 1] /\ de_u16_h false [0; 1] 0 = Ok (Some (256, 2)) /\
  ser_u32_h false [] 1 = [0; 0; 0; 1] /\ de_u32_h false [0; 0; 0; 1] 0 = Ok (Some (16777216, 4)).
Proof. repeat split; vm_compute; reflexivity. Qed.
