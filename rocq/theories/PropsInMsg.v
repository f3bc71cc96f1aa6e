(** Properties C21-C22: the queue of received messages. *)
From Verif Require Import Base ListLemmas Dict PDict InMsg InMsgSpec InMsgProofs.

(** C21.  For every interleaving of appends and extractions: the queue never fails; an
    extraction hands out one of the pending messages with its sender (nothing iff none is
    pending); what was appended is, as a multiset, what was handed out plus what is pending;
    and further extractions hand out all the pending messages. *)
Theorem C21_inmsg_exactly_once :
  forall (P : Type) (ops : list (iop P)),
  exists q outs pend, inq_run inq_new ops = Ok (q, outs) /\ delivers [] ops outs pend /\
    Permutation (appended ops) (handed outs ++ pend) /\
    forall n, (length pend <= n)%nat ->
      exists q' outs', inq_run q (repeat IExtract n) = Ok (q', outs') /\ Permutation pend (handed outs').
Proof.
  intros P ops. destruct (run_delivers ops _ _ inv_new) as (q & outs & pend & HR & HD & HI).
  exists q, outs, pend. splits; auto.
  - apply (delivers_perm _ _ _ _ HD).
  - intros n Hn. destruct (run_delivers (repeat IExtract n) _ _ HI) as (q' & outs' & pend' & HR' & HD' & _).
    exists q', outs'. split; auto. rewrite (delivers_drain n _ _ _ HD' Hn) in HD'.
    pose proof (delivers_perm _ _ _ _ HD') as HP. rewrite app_nil_r in HP.
    replace (appended (repeat IExtract n)) with (@nil (Z * P)) in HP by (clear; induction n; auto).
    rewrite app_nil_r in HP. auto.
Qed.
Print Assumptions C21_inmsg_exactly_once.
Example C21_a_run :
  exists q, inq_run inq_new [IAppend 3 10; IAppend 23 20; IAppend 3 11; IExtract; IExtract; IAppend 5 30; IExtract; IExtract; IExtract]
    = Ok (q, [Some (3, 11); Some (3, 10); Some (23, 20); Some (5, 30); None]).
Proof. eexists. vm_compute. reflexivity. Qed.

(** C22.  The documented order (FIFO, buzzvm.h 178) does not hold: with two messages
    from robot 7 the second is handed out first. *)
Theorem C22_inmsg_fifo_refuted :
  exists q, inq_run inq_new [IAppend 7 1; IAppend 7 2; IExtract; IExtract] = Ok (q, [Some (7, 2); Some (7, 1)]).
Proof. eexists. vm_compute. reflexivity. Qed.
Print Assumptions C22_inmsg_fifo_refuted.

(** What holds: the messages of one robot come out in reverse order of arrival. *)
Theorem C22_inmsg_lifo_per_robot :
  forall (P : Type) (r : Z) (ps : list P),
  exists q, inq_run inq_new (map (IAppend r) ps ++ repeat IExtract (length ps)) =
            Ok (q, map (fun p => Some (r, p)) (rev ps)).
Proof.
  intros P r ps. destruct (run_delivers (map (IAppend r) ps ++ repeat IExtract (length ps)) _ _ inv_new) as (q & outs & pend & HR & HD & _).
  exists q. rewrite HR. do 2 f_equal.
  assert (H1 : forall l pend0, delivers pend0 (map (IAppend r) l ++ repeat IExtract (length ps)) outs pend ->
     delivers (pend0 ++ map (pair r) l) (repeat IExtract (length ps)) outs pend).
  { induction l as [|x l IH]; intros pend0 H; cbn in *; [rewrite app_nil_r; auto|].
    inversion H as [|? ? ? ? ? ? H4| |]; subst. apply IH in H4. rewrite <- app_assoc in H4. exact H4. }
  apply H1 in HD. cbn in HD. clear HR H1. revert outs HD.
  induction ps as [|x ps IH] using rev_ind; intros outs HD.
  - cbn in *. inversion HD; auto.
  - rewrite app_length, Nat.add_comm in HD. cbn [length Nat.add repeat] in HD. rewrite map_app in HD. cbn [map] in HD.
    inversion HD as [| |? ? ? H0 Hp|l1 r' p l2 ? outs' ? Hn HD' Hp]; subst.
    { destruct (map (pair r) ps); discriminate. }
    destruct l2 as [|y l2] using rev_ind.
    + apply app_inj_tail in Hp as [-> Hx]. inversion Hx; subst. rewrite app_nil_r in HD'. rewrite rev_app_distr. cbn. f_equal. auto.
    + exfalso. rewrite app_comm_cons, app_assoc in Hp. apply app_inj_tail in Hp as [Hp Hy]. subst y.
      assert (In (r', p) (map (pair r) ps)). { rewrite <- Hp. apply in_app_iff. right. left. auto. }
      apply in_map_iff in H as (z & Hz & _). inversion Hz; subst. apply (Hn x). apply in_app_iff. right. left. auto.
Qed.
Print Assumptions C22_inmsg_lifo_per_robot.
