(** Properties C15-C16: the wire encoding of Buzz objects. *)
From Verif Require Import Base ListLemmas Float Dict PDict Strman StrmanSpec StrmanProofs Msg MsgProofs Obj Wire WireSpec
  WireProofs WireTotal.

(** C15.  A serialisable object written anywhere in a message is read back at any robot (any
    string manager with room for the new strings) as an equal object, and reading consumes
    exactly the bytes written.  Missing from the full statement: tables of more than 255
    entries, and tables whose keys collide across types (theorems below). *)
Theorem C15_object_roundtrip_partial :
  forall w, wok w ->
  exists enc, (forall pre, obj_ser pre w = Ok (pre ++ enc)) /\
  forall ops sm outs pre post,
    smhist_ok sm_new ops -> sm_run sm_new ops = Ok (sm, outs) ->
    zlen (pre ++ enc ++ post) < 2 ^ 32 -> sm_live sm + zlen (enc ++ post) < 65534 ->
    exists w' sm', deser (pre ++ enc ++ post) (zlen pre) sm = Ok (Some (w', zlen pre + zlen enc), sm') /\ weq w w'.
Proof.
  intros w Hw. destruct (roundtrip w Hw) as (enc & Hpos & HS & HD). exists enc. split; [auto|].
  intros ops sm outs pre post Ho Hr HL HM. destruct SInv_new as [H1 H2].
  destruct (sm_run_ok ops sm_new _ H1 H2 Ho) as (sm1 & outs1 & M & E & HT & HI & HId).
  rewrite E in Hr. inversion Hr; subst sm1 outs1.
  destruct (HD pre post (S (length (pre ++ enc ++ post))) sm) as (w' & sm' & HE & HQ & _).
  - auto.
  - rewrite !zlen_app in *. unfold zlen in *. rewrite !app_length. lia.
  - exists M. splits; auto.
  - exists w', sm'. split; [exact HE|auto].
Qed.
Print Assumptions C15_object_roundtrip_partial.

(** A nested table with float, string and integer keys. *)
Definition demo_obj : wobj :=
  WTab [[]; [(WInt 1, WTab [[(WStr 7 [97], WFloat (f_of_Z 3))]]); (WStr 1 [98], WNil)];
        [(WFloat (f_of_Z 2), WStr 4 [99; 100])]].
Example C15_nontrivial : wok demo_obj.
Proof.
  apply wok_tab; cbn [concat app].
  - vm_compute. discriminate.
  - repeat constructor; try (vm_compute; congruence).
    + eexists. vm_compute. reflexivity.
  - repeat constructor; eexists; (split; [vm_compute; reflexivity|discriminate]).
Qed.
Example C15_nontrivial_bytes :
  match obj_ser [] demo_obj with
  | Ok enc => match deser enc 0 sm_new with Ok (Some (_, p), _) => p = zlen enc | _ => False end
  | _ => False
  end.
Proof. vm_compute. reflexivity. Qed.

(** The size of a table travels as one byte: a table with 256 entries is read back as an
    empty table, and reading stops after two bytes. *)
Definition big_table : wobj := WTab [map (fun i => (WInt (Z.of_nat i), WNil)) (seq 0 256)].
Theorem C15_table_of_256_refuted :
  exists enc, obj_ser [] big_table = Ok enc /\ zlen enc > 2 /\
    deser enc 0 sm_new = Ok (Some (WTab (pnew 10), 2), sm_new).
Proof.
  eexists. split; [vm_compute; reflexivity|]. split; [vm_compute; reflexivity|]. vm_compute; reflexivity.
Qed.
Print Assumptions C15_table_of_256_refuted.

(** The keys 1 and "1" are different entries at the sender whenever the id of "1" falls in
    another bucket, but compare equal; at a receiver where the id of "1" falls in the bucket
    of 1 one entry is lost. *)
Definition clash_table : wobj := WTab ([(WStr 0 [49], WInt 20)] :: [(WInt 1, WInt 10)] :: repeat [] 8).
Theorem C15_keys_of_two_types_refuted :
  match clash_table with WTab bs =>
    rget whash wcmp bs (WInt 1) = Ok (Some (WInt 10)) /\ rget whash wcmp bs (WStr 0 [49]) = Ok (Some (WInt 20))
  | _ => False end /\
  exists enc sm outs sm' t,
    obj_ser [] clash_table = Ok enc /\ sm_run sm_new [SmReg [97] false] = Ok (sm, outs) /\
    deser enc 0 sm = Ok (Some (WTab t, zlen enc), sm') /\ psize t = 1.
Proof.
  split; [vm_compute; auto|]. eexists _, _, _, _, _.
  split; [vm_compute; reflexivity|]. split; [vm_compute; reflexivity|]. split; [vm_compute; reflexivity|]. vm_compute; reflexivity.
Qed.
Print Assumptions C15_keys_of_two_types_refuted.

(** C16.  On every byte string and start position decoding terminates, and if it neither
    aborts nor runs into undefined behaviour it returns -1 or a position after the start and
    not past the end.  Missing: it does abort or misbehave on some bytes (next theorem). *)
Theorem C16_decode_bounds_partial :
  forall buf pos ops sm outs,
    zlen buf < 2 ^ 32 - 65536 -> 0 <= pos <= zlen buf ->
    smhist_ok sm_new ops -> sm_run sm_new ops = Ok (sm, outs) -> sm_live sm + (zlen buf - pos) < 65534 ->
    deser buf pos sm <> Hang /\
    forall w p sm', deser buf pos sm = Ok (Some (w, p), sm') -> pos < p <= zlen buf.
Proof.
  intros buf pos ops sm outs HB Hp Ho Hr HM. destruct SInv_new as [H1 H2].
  destruct (sm_run_ok ops sm_new _ H1 H2 Ho) as (sm1 & outs1 & M & E & HT & HI & HId).
  rewrite E in Hr. inversion Hr; subst sm1 outs1.
  assert (HO : okpos buf pos (deser buf pos sm)).
  { unfold deser. apply deser_bounds; auto.
    - unfold zlen in *. lia.
    - exists M. splits; auto. }
  split.
  - intro HH. rewrite HH in HO. exact HO.
  - intros w p sm' HE. rewrite HE in HO. cbn in HO. lia.
Qed.
Print Assumptions C16_decode_bounds_partial.

Example C16_nontrivial :
  deser [4; 2; 1; 0; 0; 0; 9; 0; 3; 0; 1; 97; 0] 0 sm_new <> Ok (None, sm_new) /\
  exists w sm, deser [4; 2; 1; 0; 0; 0; 9; 0; 3; 0; 1; 97; 0] 0 sm_new = Ok (Some (w, 13), sm).
Proof. split; [vm_compute; discriminate|]. eexists _, _. vm_compute. reflexivity. Qed.

(** A table with a nil key aborts the process; an unknown type tag, a float with mantissa
    2^31 and a negative float used as a key are undefined behaviour. *)
Theorem C16_decode_total_refuted :
  deser [4; 1; 0; 0] 0 sm_new = Abort /\
  (forall rest, deser (7 :: rest) 0 sm_new = UB) /\
  (forall a b c d, deser [2; 128; 0; 0; 0; a; b; c; d] 0 sm_new = UB) /\
  exists enc, obj_ser [4; 1] (WFloat (f_of_Z (-1))) = Ok enc /\ deser (enc ++ [0]) 0 sm_new = UB.
Proof.
  split; [vm_compute; reflexivity|]. split.
  { intro rest. pose proof (zlen_nonneg rest). assert (E : de_u8 (7 :: rest) 0 = Ok (Some (7, 1))).
    { unfold de_u8, byte_at. rewrite zlen_cons. destruct (_ >? _) eqn:E1; [lia|].
      destruct (_ && _) eqn:E2; [reflexivity|lia]. }
    unfold deser. cbn [obj_deser]. rewrite E. reflexivity. }
  split.
  { intros a b c d. unfold deser. cbn [obj_deser length].
    change (de_u8 [2; 128; 0; 0; 0; a; b; c; d] 0) with (@Ok (option (Z * Z)) (Some (2, 1))). cbn [bind].
    change (2 =? T_NIL) with false. change (2 =? T_INT) with false. change (2 =? T_FLOAT) with true. cbv iota.
    assert (E : de_float [2; 128; 0; 0; 0; a; b; c; d] 1 = UB) by reflexivity. rewrite E. reflexivity. }
  eexists. split; [vm_compute; reflexivity|]. vm_compute. reflexivity.
Qed.
Print Assumptions C16_decode_total_refuted.
