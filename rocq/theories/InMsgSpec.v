(** Specification of the queue of received messages. *)
From Verif Require Import Base InMsg.

Section S.
Context {P : Type}.
(** [delivers pend ops outs pend']: starting with the messages [pend] pending (in order of
    arrival), the operations [ops] hand out [outs] and leave [pend'] pending.  An extraction
    hands out nothing exactly when nothing is pending; otherwise it hands out one pending
    message with its sender, the last one received from that sender, and removes it. *)
Inductive delivers : list (Z * P) -> list (iop P) -> list (option (Z * P)) -> list (Z * P) -> Prop :=
| dl_done pend : delivers pend [] [] pend
| dl_append pend r p ops outs pend' :
    delivers (pend ++ [(r, p)]) ops outs pend' -> delivers pend (IAppend r p :: ops) outs pend'
| dl_nothing ops outs pend' :
    delivers [] ops outs pend' -> delivers [] (IExtract :: ops) (None :: outs) pend'
| dl_take l1 r p l2 ops outs pend' :
    (forall p', ~ In (r, p') l2) ->
    delivers (l1 ++ l2) ops outs pend' ->
    delivers (l1 ++ (r, p) :: l2) (IExtract :: ops) (Some (r, p) :: outs) pend'.

(** What was appended, what was handed out. *)
Fixpoint appended (ops : list (iop P)) : list (Z * P) :=
  match ops with
  | [] => [] | IAppend r p :: t => (r, p) :: appended t | IExtract :: t => appended t
  end.
Fixpoint handed (outs : list (option (Z * P))) : list (Z * P) :=
  match outs with [] => [] | Some x :: t => x :: handed t | None :: t => handed t end.
End S.
