(** C56: the list of swarms is announced periodically. *)
From Verif Require Import Base ListLemmas Dict PDict Obj OutMsg OutStep.

(** A step of the robot: whatever happens to the queue (other messages are queued, some are sent), then
    buzzvm_process_outmsgs with the memberships of that moment. *)
Record step := { st_before : oq -> oq; st_swarms : pdict Z Z }.
(** Counter and queue after each step. *)
Fixpoint run (c : Z) (q : oq) (steps : list step) : list (Z * oq * oq) (* counter, queue before and after *) :=
  match steps with
  | [] => []
  | s :: t => let q0 := st_before s q in let '(c1, q1) := process_outmsgs c q0 (st_swarms s) in (c1, q0, q1) :: run c1 q1 t
  end.
(** [announced i]: at step [i] (from 0) the list of swarms is queued. *)
Definition knows_swarms (s : step) : bool := negb (psize (st_swarms s) =? 0).
(** What should happen at each step, given the numbers of steps since the last announcement (or since the start): a
    list is queued at the tenth step since the last one, or at the first one after it at which the robot knows a swarm. *)
Fixpoint schedule (since : nat) (steps : list step) : list bool :=
  match steps with
  | [] => []
  | s :: t => if (10 <=? S since)%nat && knows_swarms s then true :: schedule 0 t else false :: schedule (S since) t
  end.

Lemma run_schedule : forall steps since q c, c = Z.max 0 (10 - Z.of_nat since) ->
  forall i s b c1 q0 q1, nth_error steps i = Some s -> nth_error (schedule since steps) i = Some b -> nth_error (run c q steps) i = Some (c1, q0, q1) ->
    q1 = if b then append_swarm_list q0 (st_swarms s) else q0.
Proof.
  induction steps as [|s0 t IH]; intros since q c Hc i s b c1 q0 q1 H1 H2 H3; [destruct i; discriminate|].
  cbn [schedule run] in *. unfold process_outmsgs in H3. fold (knows_swarms s0) in H3.
  set (c0 := if c >? 0 then c - 1 else c) in H3.
  assert (Hc0 : c0 = Z.max 0 (10 - Z.of_nat (S since))) by (unfold c0; destruct (c >? 0) eqn:E; lia).
  replace (c0 =? 0) with (10 <=? S since)%nat in H3 by (destruct (10 <=? S since)%nat eqn:E; [apply Nat.leb_le in E|apply Nat.leb_gt in E]; lia).
  destruct ((10 <=? S since)%nat && knows_swarms s0) eqn:EB.
  - destruct i as [|i]; cbn [nth_error] in *; [inversion H1; inversion H2; inversion H3; subst; auto|]. eapply IH; [|eassumption|eassumption|eassumption]. reflexivity.
  - destruct i as [|i]; cbn [nth_error] in *; [inversion H1; inversion H2; inversion H3; subst; auto|]. eapply IH; [|eassumption|eassumption|eassumption]. exact Hc0.
Qed.
Lemma schedule_length steps : forall since, length (schedule since steps) = length steps.
Proof. induction steps as [|s t IH]; intro since; cbn [schedule]; auto. destruct (_ && _); cbn; auto. Qed.
Lemma run_length steps : forall c q, length (run c q steps) = length steps.
Proof. induction steps as [|s t IH]; intros c q; cbn [run]; auto. destruct (process_outmsgs _ _ _). cbn. auto. Qed.

(** C56.  For any sequence of steps, whatever else happens to the queue: the list of the robot's swarms is queued at the
    steps of the schedule, and at no others the queue is touched. *)
Theorem C56_announcements :
  forall steps q i s, nth_error steps i = Some s ->
    exists b c1 q0 q1, nth_error (schedule 0 steps) i = Some b /\
      nth_error (run SWARM_BROADCAST_PERIOD q steps) i = Some (c1, q0, q1) /\
      q1 = if b then append_swarm_list q0 (st_swarms s) else q0.
Proof.
  intros steps q i s H. assert (HL : (i < length steps)%nat) by (apply nth_error_Some; congruence).
  destruct (nth_error (schedule 0 steps) i) as [b|] eqn:E1; [|apply nth_error_None in E1; rewrite schedule_length in E1; lia].
  destruct (nth_error (run SWARM_BROADCAST_PERIOD q steps) i) as [[[c1 q0] q1]|] eqn:E2; [|apply nth_error_None in E2; rewrite run_length in E2; lia].
  exists b, c1, q0, q1. split; auto. split; auto. apply (run_schedule steps 0 q SWARM_BROADCAST_PERIOD eq_refl i s b c1 q0 q1 H E1 E2).
Qed.
Print Assumptions C56_announcements.

(** A robot that always knows a swarm announces at every tenth step exactly. *)
Theorem C56_every_tenth_step :
  forall steps i, Forall (fun s => knows_swarms s = true) steps -> (i < length steps)%nat ->
    nth_error (schedule 0 steps) i = Some ((S i mod 10 =? 0)%nat).
Proof.
  assert (G : forall steps since i, (since < 10)%nat -> Forall (fun s => knows_swarms s = true) steps -> (i < length steps)%nat ->
    nth_error (schedule since steps) i = Some (((since + S i) mod 10 =? 0)%nat)).
  { induction steps as [|s t IH]; intros since i Hs HF Hi; cbn [length] in Hi; [lia|]. inversion HF as [|? ? F1 F2]; subst. cbn [schedule]. rewrite F1, andb_true_r.
    destruct (10 <=? S since)%nat eqn:E.
    - apply Nat.leb_le in E. assert (since = 9)%nat by lia. subst since. destruct i as [|i]; [reflexivity|]. cbn [nth_error]. rewrite IH by (auto; lia). f_equal. f_equal.
      change (0 + S i)%nat with (S i). replace (9 + S (S i))%nat with (S i + 1 * 10)%nat by lia. rewrite Nat.mod_add; auto.
    - apply Nat.leb_gt in E. destruct i as [|i]; cbn [nth_error].
      + rewrite Nat.mod_small by lia. f_equal. destruct (since + 1)%nat eqn:E1; [lia|reflexivity].
      + rewrite IH by (auto; lia). f_equal. f_equal. f_equal. lia. }
  intros steps i HF Hi. apply (G steps 0%nat i); auto. lia.
Qed.
Print Assumptions C56_every_tenth_step.

(** Never twice within ten steps, for any robot. *)
Theorem C56_ten_steps_apart :
  forall steps i j, nth_error (schedule 0 steps) i = Some true -> nth_error (schedule 0 steps) j = Some true -> (i < j)%nat -> (i + 10 <= j)%nat /\ (9 <= i)%nat.
Proof.
  assert (G1 : forall steps since i, nth_error (schedule since steps) i = Some true -> (10 <= since + S i)%nat).
  { induction steps as [|s t IH]; intros since i H; [destruct i; discriminate|]. cbn [schedule] in H.
    destruct ((10 <=? S since)%nat && knows_swarms s) eqn:E.
    - apply andb_true_iff in E as [E _]. apply Nat.leb_le in E. lia.
    - destruct i as [|i]; [discriminate|]. cbn [nth_error] in H. apply IH in H. lia. }
  assert (G2 : forall steps since i j, nth_error (schedule since steps) i = Some true -> nth_error (schedule since steps) j = Some true -> (i < j)%nat -> (i + 10 <= j)%nat).
  { induction steps as [|s t IH]; intros since i j H1 H2 HL; [destruct i; discriminate|]. cbn [schedule] in H1, H2. destruct j as [|j]; [lia|].
    destruct ((10 <=? S since)%nat && knows_swarms s) eqn:E; cbn [nth_error] in H1, H2.
    - destruct i as [|i].
      + apply G1 in H2. lia.
      + enough (i + 10 <= j)%nat by lia. eapply IH; eauto. lia.
    - destruct i as [|i]; cbn [nth_error] in H1; [discriminate|]. enough (i + 10 <= j)%nat by lia. eapply IH; eauto. lia. }
  intros steps i j H1 H2 HL. split; [eauto|]. apply G1 in H1. lia.
Qed.
Print Assumptions C56_ten_steps_apart.
(** 25 steps; the robot joins swarm 4 at the twelfth. *)
Example C56_nontrivial :
  let steps := repeat {| st_before := fun q => q; st_swarms := pnew 10 |} 11 ++
               repeat {| st_before := fun q => q; st_swarms := pset uintkeyhash intkeycmp (pnew 10) 4 1 |} 14 in
  filter (fun i => nth i (schedule 0 steps) false) (seq 0 25) = [11; 21]%nat /\
  match nth_error (run SWARM_BROADCAST_PERIOD oq_new steps) 21 with Some (_, _, q) => o_list q = [[4]] | None => False end.
Proof. vm_compute. auto. Qed.
