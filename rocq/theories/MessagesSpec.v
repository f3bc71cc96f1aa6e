(** Specification of messages between robots. *)
From Verif Require Import Base Float Dict PDict Strman Msg Obj Wire WireSpec Messages.

(** Messages that can be transmitted: 16-bit ids, serialisable objects, a string as topic, and a
    number of swarms that fits its 16-bit field. *)
Definition u16 (x : Z) : Prop := 0 <= x < 65536.
Definition msg_ok (m : wmsg) : Prop :=
  match m with
  | WBroadcast t v => (exists i s, t = WStr i s) /\ wok t /\ wok v
  | WList ids => 0 < zlen ids < 65536 /\ Forall u16 ids
  | WPut id k v ts r | WQuery id k v ts r => u16 id /\ wok k /\ wok v /\ u16 ts /\ u16 r
  | WJoin id | WLeave id => u16 id
  end.
(** The same message at another robot: objects are equal up to string ids ([weq]). *)
Definition msg_eq (m m' : wmsg) : Prop :=
  match m, m' with
  | WBroadcast t v, WBroadcast t' v' => weq t t' /\ weq v v'
  | WList ids, WList ids' => ids = ids'
  | WPut id k v ts r, WPut id' k' v' ts' r' => id = id' /\ weq k k' /\ weq v v' /\ ts = ts' /\ r = r'
  | WQuery id k v ts r, WQuery id' k' v' ts' r' => id = id' /\ weq k k' /\ weq v v' /\ ts = ts' /\ r = r'
  | WJoin i, WJoin j => i = j
  | WLeave i, WLeave j => i = j
  | _, _ => False
  end.

(** The strings known before are still known, under the same ids. *)
Definition keeps (sm sm' : strman) : Prop :=
  forall i t, 0 <= i < 65536 -> sm_get sm i = Some t -> sm_get sm' i = Some t.
(** All strings in an object are strings of this robot, under these ids. *)
Inductive wlive (sm : strman) : wobj -> Prop :=
| wl_nil : wlive sm WNil
| wl_int z : wlive sm (WInt z)
| wl_float f : wlive sm (WFloat f)
| wl_str i s : 0 <= i < 65536 -> sm_get sm i = Some s -> wlive sm (WStr i s)
| wl_tab bs : Forall (fun e => wlive sm (fst e) /\ wlive sm (snd e)) (concat bs) -> wlive sm (WTab bs)
| wl_clos n r a : wlive sm (WClos n r a).
