(** Specification of listeners and of the transfer of objects between robots. *)
From Verif Require Import Base Float Dict PDict Strman Msg Obj Wire Instr Vm InMsg InMsgSpec Messages Listen.

(** [repr lo h o w]: in the heap [h] the object [o] has the contents [w]; its tables have addresses
    from [lo] on.  Tables have the same entries, bucket by bucket. *)
Inductive repr (lo : Z) (h : list table) : obj -> wobj -> Prop :=
| rp_nil : repr lo h ONil WNil
| rp_int z : repr lo h (OInt z) (WInt z)
| rp_float f : repr lo h (OFloat f) (WFloat f)
| rp_str i s : repr lo h (OStr i s) (WStr i s)
| rp_clos n r act : repr lo h (OClos n r act) (WClos (if n then 1 else 0) r (zlen act))
| rp_user p : repr lo h (OUser p) WUser
| rp_tab a t bs : 0 <= a -> lo <= a -> nth_error h (Z.to_nat a) = Some t ->
    map (@length _) t = map (@length _) bs ->
    Forall2 (fun e e' => repr lo h (fst e) (fst e') /\ repr lo h (snd e) (snd e')) (concat t) (concat bs) ->
    repr lo h (OTab a) (WTab bs).

(** What scripts do to the listeners. *)
Inductive lop := LListen (topic : Z) (f : obj) | LIgnore (topic : Z).
(** The listener of a topic: the one registered last, if it was not ignored since. *)
Fixpoint listener (hist : list lop) (* latest first *) (topic : Z) : option obj :=
  match hist with
  | [] => None
  | LListen t f :: r => if t =? topic then Some f else listener r topic
  | LIgnore t :: r => if t =? topic then None else listener r topic
  end.
(** The listeners of a VM: what a history of registrations left (10 buckets, buzzvm.c 567). *)
Definition lis_apply (op : lop) (d : pdict Z obj) : pdict Z obj :=
  match op with LListen t f => lis_set d t f | LIgnore t => lis_remove d t end.
Definition lop_ok (op : lop) : Prop := match op with LListen t _ | LIgnore t => 0 <= t < 65536 end.
Definition listens (v : lvm) (hist : list lop) : Prop :=
  Forall lop_ok hist /\ lx_listen (v_ext v) = fold_right lis_apply (pnew 10) hist.

(** The messages waiting in a queue: those that arrived and were not extracted, in any order. *)
Definition queued (q : inq payload) (pend : list (Z * payload)) : Prop :=
  exists ops outs, inq_run inq_new ops = Ok (q, outs) /\ Permutation (appended ops) (handed outs ++ pend).

Section H.
Variable flist : list (lvm -> res lvm).
Variable powf : libm.
Variable code : Z -> Z.
Variable size : Z.
Variable fuel : nat.
Variable has_vstig : Z -> bool.
Variable other : lvm -> Z -> wmsg -> res lvm.
(** The messages [msgs] are handled one after the other, from [v] to [v'], nothing else happens in
    between: only the queue of messages changes. *)
Inductive handled : lvm -> list (Z * payload) -> lvm -> Prop :=
| hd_nil v : handled v [] v
| hd_cons v q rid m v1 l v' :
    v_state v = S_READY ->
    handle flist powf code size fuel has_vstig other (set_ext v (set_in (v_ext v) q)) rid m = Ok v1 ->
    handled v1 l v' -> handled v ((rid, m) :: l) v'.
End H.
