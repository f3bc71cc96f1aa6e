(** Properties of whole messages: C77, C78. *)
From Coq Require Import String.
From Verif Require Import Base ListLemmas Float Dict PDict Strman StrmanSpec StrmanProofs Msg MsgProofs Obj Wire WireSpec WireProofs WireTotal
  Text PropsWire Messages MessagesSpec MessagesProofs.
Local Open Scope Z_scope.
Local Open Scope list_scope.

(** C77.  A message of any kind, written by one robot and read by another whose string manager has
    any history, is the same message there: ids, time stamps and robots are equal, objects are
    equal up to string ids.  Strings of the receiver keep their ids.  The receiver must be interested:
    a listener for the topic of a broadcast, the stigmergy of a PUT. *)
Theorem C77_message_roundtrip :
  forall m listening has_vstig,
    msg_ok m ->
    (forall id k v ts r, m = WPut id k v ts r -> has_vstig id = true) ->
    exists buf, enc_msg m = Ok buf /\
    forall ops sm outs,
      smhist_ok sm_new ops -> sm_run sm_new ops = Ok (sm, outs) ->
      sm_live sm + zlen buf < 65534 -> zlen buf < 2 ^ 32 - 65536 ->
      (forall i s v, m = WBroadcast (WStr i s) v -> exists j, 0 <= j < 65536 /\ sm_get sm j = Some s /\ listening j = true) ->
      exists m' sm', recv listening has_vstig buf sm = Ok (PMsg m', sm') /\ msg_eq m m' /\ keeps sm sm'.
Proof.
  intros m listening has_vstig HM HV. destruct (msg_rt m listening has_vstig HM HV) as (buf & EB & HR). exists buf. split; [exact EB|].
  intros ops sm outs Ho Hr HL HB HI. apply HR; auto. eapply good_run; eauto.
Qed.
Print Assumptions C77_message_roundtrip.
(** A table sent under topic "ab", read by a robot that listens to "ab" under another id. *)
Example C77_nontrivial :
  msg_ok (WBroadcast (WStr 3 (bs "ab")) demo_obj) /\
  match sm_run sm_new [SmReg (bs "x") false; SmReg (bs "ab") true], enc_msg (WBroadcast (WStr 3 (bs "ab")) demo_obj) with
  | Ok (sm, _), Ok buf =>
      sm_get sm 1 = Some (bs "ab") /\
      match recv (fun j => j =? 1) (fun _ => false) buf sm with
      | Ok (PMsg (WBroadcast (WStr 1 s) (WTab _)), _) => s = bs "ab"
      | _ => False
      end
  | _, _ => False
  end.
Proof.
  split.
  - split; [eauto|]. split; [constructor; repeat constructor; vm_compute; congruence|exact C15_nontrivial].
  - vm_compute. auto.
Qed.
Example C77_nontrivial_put : msg_ok (WPut 65535 (WStr 3 (bs "k")) demo_obj 9 65535).
Proof. cbn [msg_ok]. unfold u16. split; [lia|]. split; [constructor; repeat constructor; vm_compute; congruence|]. split; [exact C15_nontrivial|lia]. Qed.
Example C77_nontrivial_list : msg_ok (WList [0; 65535; 7]).
Proof. split; [vm_compute; auto|]. repeat constructor; lia. Qed.

(** C78.  A broadcast nobody listens to is dropped: nothing but the strings of the topic changes. *)
Theorem C78_no_listener :
  forall i s v (listening has_vstig : Z -> bool),
    wok (WStr i s) -> wok v ->
    exists buf, enc_msg (WBroadcast (WStr i s) v) = Ok buf /\
    forall ops sm outs,
      smhist_ok sm_new ops -> sm_run sm_new ops = Ok (sm, outs) ->
      sm_live sm + zlen buf < 65534 -> zlen buf < 2 ^ 32 - 65536 ->
      (forall j, listening j = true -> 0 <= j < 65536 /\ exists t, sm_get sm j = Some t /\ t <> s) ->
      exists sm', recv listening has_vstig buf sm = Ok (PIgnored, sm') /\ keeps sm sm'.
Proof.
  intros i s v listening has_vstig Ht Hv. destruct (topic_read listening has_vstig i s v Ht Hv) as (buf & EB & HD). exists buf. split; [auto|].
  intros ops sm outs Ho Hr HL HB HN. destruct (HD sm HB (good_run _ _ _ _ Ho Hr HL)) as (j & sm1 & v' & sm2 & Hj & Gj & K1 & G1 & _ & _ & _ & _ & ->).
  destruct (listening j) eqn:E; [|eauto]. exfalso. destruct (HN j E) as (Hj' & t & Ht' & Hne). specialize (K1 _ _ Hj' Ht'). congruence.
Qed.
Print Assumptions C78_no_listener.

(** Announcements of joining and leaving and messages of an unknown type: for any bytes after the
    type, the message read is the one the bytes say, or nothing; no strings are added.  A PUT for a
    stigmergy that the robot does not have is dropped whatever follows the id.  Missing from the full
    statement: the other types, which misbehave on malformed messages (theorem below). *)
Theorem C78_malformed_partial :
  (forall listening has_vstig ty rest sm,
    3 < ty < 256 -> Forall (fun b => 0 <= b < 256) rest ->
    recv listening has_vstig (ty :: rest) sm =
      Ok ((if (ty =? 4) || (ty =? 5) then
             match rest with
             | a :: b :: _ => PMsg (if ty =? 4 then WJoin (256 * a + b) else WLeave (256 * a + b))
             | _ => PMalformed
             end
           else PIgnored), sm)) /\
  (forall listening (has_vstig : Z -> bool) rest sm,
    Forall (fun b => 0 <= b < 256) rest ->
    (forall a b r, rest = a :: b :: r -> has_vstig (256 * a + b) = false) ->
    recv listening has_vstig (2 :: rest) sm = Ok (if zlen rest <? 2 then PMalformed else PIgnored, sm)).
Proof.
  assert (ER : forall t a b r, 0 <= a < 256 -> 0 <= b < 256 -> de_u16 (t :: a :: b :: r) 1 = Ok (Some (256 * a + b, 3))).
  { intros t a b r Ha Hb. assert (EE : enc16 (256 * a + b) = [a; b]).
    { unfold enc16. f_equal; [symmetry; apply Z.div_unique with b; lia|f_equal; symmetry; apply Z.mod_unique with a; lia]. }
    pose proof (de_u16_1 t (256 * a + b) r ltac:(lia)) as H. rewrite EE in H. exact H. }
  split.
  - intros listening has_vstig ty rest sm HT HL. unfold recv. rewrite byte0. cbn [bind].
    unfold BUZZMSG_BROADCAST, BUZZMSG_VSTIG_PUT, BUZZMSG_VSTIG_QUERY, BUZZMSG_SWARM_LIST, BUZZMSG_SWARM_JOIN, BUZZMSG_SWARM_LEAVE.
    replace (ty =? 0) with false by lia. replace (ty =? 2) with false by lia. replace (ty =? 3) with false by lia. replace (ty =? 1) with false by lia. cbn [orb].
    destruct ((ty =? 4) || (ty =? 5)) eqn:E; [|reflexivity].
    destruct rest as [|a [|b rest]]; [reflexivity|reflexivity|]. inversion HL; subst. inversion H2; subst. rewrite ER by auto. reflexivity.
  - intros listening has_vstig rest sm HL HV. unfold recv. rewrite byte0. cbn [bind]. change (2 =? BUZZMSG_BROADCAST) with false. change (2 =? BUZZMSG_VSTIG_PUT) with true. cbn [orb andb].
    destruct rest as [|a [|b rest]]; [reflexivity|reflexivity|]. inversion HL; subst. inversion H2; subst. rewrite ER by auto. cbn [bind].
    rewrite (HV _ _ _ eq_refl). cbn [negb]. replace (zlen (a :: b :: rest) <? 2) with false; [reflexivity|]. symmetry. rewrite !zlen_cons. pose proof (zlen_nonneg rest). lia.
Qed.
Print Assumptions C78_malformed_partial.
Example C78_nontrivial :
  recv (fun _ => true) (fun _ => true) [4; 1; 2; 9] sm_new = Ok (PMsg (WJoin 258), sm_new) /\
  recv (fun _ => true) (fun _ => true) [5; 1] sm_new = Ok (PMalformed, sm_new) /\
  recv (fun _ => true) (fun _ => true) [77] sm_new = Ok (PIgnored, sm_new) /\
  recv (fun _ => true) (fun _ => false) [2; 0; 1; 200] sm_new = Ok (PIgnored, sm_new).
Proof. vm_compute. auto. Qed.

(** A message that is empty, a list of swarms shorter than it says, and a broadcast that is cut off or
    whose topic is not a string are not ignored: bytes outside the message, or
    uninitialised memory, are used. *)
Theorem C78_malformed_refuted :
  forall listening has_vstig sm,
    recv listening has_vstig [] sm = UB /\
    (forall ids n, Forall u16 ids -> zlen ids < n < 65536 ->
       recv listening has_vstig (1 :: enc16 n ++ concat (map enc16 ids)) sm = UB) /\
    recv listening has_vstig [0] sm = UB /\
    recv listening has_vstig [0; T_NIL] sm = UB.
Proof.
  intros listening has_vstig sm. split; [reflexivity|]. split; [|split; reflexivity].
  intros ids n HI Hn. pose proof (zlen_nonneg ids). unfold recv. rewrite byte0. cbn [bind].
  change (1 =? BUZZMSG_BROADCAST) with false. change ((1 =? BUZZMSG_VSTIG_PUT) || (1 =? BUZZMSG_VSTIG_QUERY)) with false. change (1 =? BUZZMSG_SWARM_LIST) with true. cbv iota.
  rewrite de_u16_1 by lia. cbn [bind]. replace (n <? 1) with false by lia.
  assert (E : forall ids pre k, Forall u16 ids -> (length ids < k)%nat -> de_ids k (pre ++ concat (map enc16 ids)) (zlen pre) = UB).
  { clear. induction ids as [|i ids IH]; intros pre k HI Hk; (destruct k as [|k]; [cbn in Hk; lia|]); cbn [de_ids map concat].
    - rewrite app_nil_r. replace (de_u16 pre (zlen pre)) with (@Ok (option (Z * Z)) None); [reflexivity|]. unfold de_u16, de_u16_h.
      destruct (zlen pre + 2 >? zlen pre) eqn:E; [reflexivity|lia].
    - inversion HI as [|? ? Hi HI']; subst. unfold u16 in Hi. rewrite de_u16_enc by lia. cbn [bind]. rewrite app_assoc. replace (zlen pre + 2) with (zlen (pre ++ enc16 i)) by (rewrite zlen_app; reflexivity).
      rewrite IH; [reflexivity|auto|cbn in Hk; lia]. }
  pose proof (E ids (1 :: enc16 n) (Z.to_nat n) HI ltac:(unfold zlen in Hn; lia)) as E'. change (zlen (1 :: enc16 n)) with 3 in E'. cbn [app] in *. rewrite E'. reflexivity.
Qed.
Print Assumptions C78_malformed_refuted.
