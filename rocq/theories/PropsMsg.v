(** Properties C11-C14: the primitive wire codec. *)
From Verif Require Import Base ListLemmas Float Msg MsgProofs FloatProofs.

(** C11.  Whatever precedes and follows in the message, decoding an encoded integer returns
    it and the position just after its bytes (little-endian hosts). *)
Theorem C11_u8_roundtrip :
  forall pre post x, 0 <= x < 2 ^ 8 ->
  exists enc, ser_u8 pre x = pre ++ enc /\ zlen enc = 1 /\
    de_u8 (pre ++ enc ++ post) (zlen pre) = Ok (Some (x, zlen pre + 1)).
Proof. intros pre post x H. destruct (u8_roundtrip pre post x H). exists [x]. auto. Qed.
Print Assumptions C11_u8_roundtrip.

Theorem C11_u16_roundtrip :
  forall pre post x, 0 <= x < 2 ^ 16 ->
  exists enc, ser_u16 pre x = pre ++ enc /\ zlen enc = 2 /\
    de_u16 (pre ++ enc ++ post) (zlen pre) = Ok (Some (x, zlen pre + 2)).
Proof.
  intros pre post x H. exists (enc16 x). split; [apply ser_u16_enc; auto|].
  split; [reflexivity|apply de_u16_enc; auto].
Qed.
Print Assumptions C11_u16_roundtrip.

Theorem C11_u32_roundtrip :
  forall pre post x, 0 <= x < 2 ^ 32 ->
  exists enc, ser_u32 pre x = pre ++ enc /\ zlen enc = 4 /\
    de_u32 (pre ++ enc ++ post) (zlen pre) = Ok (Some (x, zlen pre + 4)).
Proof.
  intros pre post x H. exists (enc32 x). split; [apply ser_u32_enc; auto|].
  split; [reflexivity|apply de_u32_enc; auto].
Qed.
Print Assumptions C11_u32_roundtrip.

(** The bytes are in network order, so that robots agree on them. *)
Theorem C11_network_order :
  forall x, (0 <= x < 2 ^ 16 -> ser_u16 [] x = [x / 256; x mod 256]) /\
            (0 <= x < 2 ^ 32 -> ser_u32 [] x =
               [x / 2 ^ 24; x / 2 ^ 16 mod 256; x / 2 ^ 8 mod 256; x mod 256]).
Proof.
  intro x. split; intro H.
  - rewrite ser_u16_enc by auto. unfold enc16. reflexivity.
  - rewrite ser_u32_enc by auto. unfold enc32. reflexivity.
Qed.
Print Assumptions C11_network_order.

Example C11_nontrivial : de_u32 ([7] ++ ser_u32 [] 3000000000 ++ [9; 9]) 1 = Ok (Some (3000000000, 5)).
Proof. vm_compute. reflexivity. Qed.

(** On a big-endian host decoding does not invert encoding. *)
Theorem C11_big_endian_host_refuted :
  exists x, 0 <= x < 2 ^ 16 /\ exists y p, y <> x /\ de_u16_h false (ser_u16_h false [] x) 0 = Ok (Some (y, p)) /\
    exists y' p', y' <> x /\ de_u32_h false (ser_u32_h false [] x) 0 = Ok (Some (y', p')).
Proof.
  exists 1. split; [lia|]. exists 256, 2. split; [lia|split; [vm_compute; reflexivity|]].
  exists 16777216, 4. split; [lia|vm_compute; reflexivity].
Qed.
Print Assumptions C11_big_endian_host_refuted.

(** C12.  Every finite float, normal or subnormal, comes back exactly (both zeros as +0),
    anywhere in a message. *)
Theorem C12_float_roundtrip :
  forall pre post f, valid_f32 f = true -> finite_f32 f = true ->
  exists enc g, ser_float pre f = Ok (pre ++ enc) /\ zlen enc = 8 /\
    de_float (pre ++ enc ++ post) (zlen pre) = Ok (Some (g, zlen pre + 8)) /\
    (match f with S754_zero _ => g = S754_zero false | _ => g = f end) /\ feq f g = true.
Proof.
  intros pre post f HV HF. destruct (float_roundtrip pre post f HV HF) as (enc & H1 & H2 & H3).
  exists enc, (canon_zero f). splits; auto.
  - destruct f; auto; discriminate.
  - destruct f as [s| | |s m e]; try discriminate; [reflexivity|]. cbn. unfold feq, SFeqb, SFcompare.
    destruct s; rewrite Z.compare_refl, Pcompare_refl; reflexivity.
Qed.
Print Assumptions C12_float_roundtrip.

(** Smallest subnormal, largest float and 0.1f. *)
Example C12_nontrivial :
  Forall (fun f => valid_f32 f = true /\ finite_f32 f = true)
    [S754_finite true 1 (-149); S754_finite false 16777215 104; S754_finite false 13421773 (-27)].
Proof. repeat constructor. Qed.

(** Infinities and NaN are outside the property: encoding them converts an unrepresentable
    float to int32_t. *)
Theorem C12_nonfinite_undefined :
  forall buf f, finite_f32 f = false -> ser_float buf f = UB.
Proof. exact float_nonfinite. Qed.
Print Assumptions C12_nonfinite_undefined.

(** C13.  Strings shorter than 65536 bytes come back exactly, anywhere in a message.
    Missing: longer strings, for which the property is false (next theorem). *)
Theorem C13_string_roundtrip_partial :
  forall pre post s, zlen s < 65536 -> Forall (fun b => b <> 0) s ->
  zlen pre + zlen s + zlen post + 2 < 2 ^ 32 ->
  exists enc, ser_string pre s = pre ++ enc /\ zlen enc = zlen s + 2 /\
    de_string (pre ++ enc ++ post) (zlen pre) = Ok (Some (s, zlen pre + zlen enc)).
Proof. exact string_roundtrip. Qed.
Print Assumptions C13_string_roundtrip_partial.

Example C13_nontrivial : de_string ([1; 2] ++ ser_string [] [104; 105] ++ [3]) 2 = Ok (Some ([104; 105], 6)).
Proof. vm_compute. reflexivity. Qed.

Theorem C13_long_string_refuted :
  exists s, Forall (fun b => b <> 0) s /\ zlen s = 65536 /\
    forall pre post, zlen pre + zlen s + zlen post + 2 < 2 ^ 32 ->
    de_string (ser_string pre s ++ post) (zlen pre) = Ok (Some ([], zlen pre + 2)).
Proof.
  exists (repeat 97 (Z.to_nat 65536)).
  assert (HL : zlen (repeat 97 (Z.to_nat 65536)) = 65536).
  { unfold zlen. rewrite repeat_length. rewrite Z2Nat.id; lia. }
  split; [|split; [exact HL|intros pre post H; apply string_too_long; auto]].
  apply Forall_forall. intros x Hx. apply repeat_spec in Hx. lia.
Qed.
Print Assumptions C13_long_string_refuted.

(** C14.  On arbitrary bytes and start positions a decoder reads inside the message only
    (otherwise the outcome would be UB) and returns -1 or a position after the start and not
    past the end.  Messages shorter than 2^32 - 65536 bytes.
    Missing: the float decoder on one mantissa word (next theorems). *)
Theorem C14_decoders_in_bounds_partial :
  forall buf pos, 0 <= pos -> zlen buf < 2 ^ 32 - 65536 ->
  (de_u8 buf pos = Ok None \/ exists v p, de_u8 buf pos = Ok (Some (v, p)) /\ pos < p <= zlen buf) /\
  (de_u16 buf pos = Ok None \/ exists v p, de_u16 buf pos = Ok (Some (v, p)) /\ pos < p <= zlen buf) /\
  (de_u32 buf pos = Ok None \/ exists v p, de_u32 buf pos = Ok (Some (v, p)) /\ pos < p <= zlen buf) /\
  (de_string buf pos = Ok None \/ exists v p, de_string buf pos = Ok (Some (v, p)) /\ pos < p <= zlen buf) /\
  ((forall e, de_u32 buf pos <> Ok (Some (2 ^ 31, e))) ->
   de_float buf pos = Ok None \/ exists v p, de_float buf pos = Ok (Some (v, p)) /\ pos < p <= zlen buf).
Proof.
  intros buf pos Hp HS.
  pose proof (de_u8_bounds buf pos Hp) as H1. pose proof (de_u16_bounds buf pos Hp) as H2.
  pose proof (de_u32_bounds buf pos Hp) as H3. pose proof (de_string_bounds buf pos Hp HS) as H4.
  pose proof (de_float_bounds buf pos Hp) as H5.
  assert (HG : forall A (r : res (option (A * Z))), good_pos buf pos r ->
            r = Ok None \/ exists v p, r = Ok (Some (v, p)) /\ pos < p <= zlen buf).
  { intros A [[[v p]|]| | |]; cbn; intro H; try tauto; right; eauto. }
  splits; try (apply HG; auto). intro HN.
  destruct (de_float buf pos) as [[[v p]|]| | |]; try tauto.
  - right. exists v, p. split; [reflexivity|lia].
  - destruct H5 as (e & He). destruct (HN _ He).
Qed.
Print Assumptions C14_decoders_in_bounds_partial.

Example C14_nontrivial : de_string [0; 5; 104; 105] 0 = Ok None /\ de_float [0; 0; 0; 1; 0; 0; 0; 0] 0 <> Ok None.
Proof. split; vm_compute; [reflexivity|discriminate]. Qed.

(** Any message with mantissa word 2^31 makes the float decoder compute abs(INT32_MIN). *)
Theorem C14_float_min_mantissa_refuted :
  forall a b c d, de_float [128; 0; 0; 0; a; b; c; d] 0 = UB.
Proof. intros. cbn. unfold de_float, de_u32, de_u32_h, byte_at. cbn. reflexivity. Qed.
Print Assumptions C14_float_min_mantissa_refuted.
