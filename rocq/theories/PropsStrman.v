(** Properties C08-C10: the string manager. *)
From Verif Require Import Base ListLemmas Dict PDict DictSpec Strman StrmanSpec StrmanProofs StrmanLimits.

(** C08.  Every history of registrations, look-ups and collections on a new manager, with
    fewer than 65534 live strings before each registration, succeeds and answers as the
    specification says: a live string keeps its id, a new string gets an id no live string
    has, an id looks up its string, a collection keeps exactly the protected and marked. *)
Theorem C08_string_ids_stable_and_unique :
  forall ops, smhist_ok sm_new ops ->
  exists sm outs M, sm_run sm_new ops = Ok (sm, outs) /\ sm_trace (fun _ => None) ops outs M.
Proof.
  intros ops H. destruct SInv_new as [H1 H2].
  destruct (sm_run_ok ops sm_new _ H1 H2 H) as (sm & outs & M & E & HT & _). eauto.
Qed.
Print Assumptions C08_string_ids_stable_and_unique.

(** In every behaviour the specification allows, live strings have distinct ids. *)
Theorem C08_live_ids_distinct :
  forall ops outs M, sm_trace (fun _ => None) ops outs M ->
  forall s t i q r, M s = Some (i, q) -> M t = Some (i, r) -> s = t.
Proof.
  intros ops outs M HT.
  assert (HG : forall M0, (forall s t i q r, M0 s = Some (i, q) -> M0 t = Some (i, r) -> s = t) ->
               sm_trace M0 ops outs M -> forall s t i q r, M s = Some (i, q) -> M t = Some (i, r) -> s = t).
  2:{ apply (HG (fun _ => None)); auto. discriminate. }
  clear HT. intros M0 HU HT. induction HT as [M0 M' HE|M0 o out M1 ops outs M2 HS HT IH].
  - intros s t i q r. rewrite !HE. apply HU.
  - apply IH. intros s t i q r. destruct o as [s0 p|i0|marks]; cbn in HS.
    + destruct HS as (id & _ & _ & HS). destruct (M0 s0) as [[id0 q0]|] eqn:E0.
      * destruct HS as [-> HS]. rewrite !HS. unfold lm_set.
        destruct (str_dec s s0), (str_dec t s0); subst; auto; intros H1 H2; try (inversion H1; subst).
        -- eapply HU; eauto.
        -- inversion H2; subst. eapply HU; eauto.
        -- eapply HU; eauto.
      * destruct HS as [HF HS]. rewrite !HS. unfold lm_set.
        destruct (str_dec s s0), (str_dec t s0); subst; auto; intros H1 H2.
        -- inversion H1; subst. destruct (HF _ _ H2).
        -- inversion H2; subst. destruct (HF _ _ H1).
        -- eapply HU; eauto.
    + destruct HS as [_ HS]. rewrite !HS. apply HU.
    + destruct HS as [_ HS]. rewrite !HS.
      destruct (M0 s) as [[i1 q1]|] eqn:E1; [|discriminate]. destruct (M0 t) as [[i2 q2]|] eqn:E2; [|discriminate].
      destruct (q1 || _); [|discriminate]. destruct (q2 || _); [|discriminate].
      intros H1 H2. inversion H1; inversion H2; subst. eapply HU; eauto.
Qed.
Print Assumptions C08_live_ids_distinct.

Example C08_nontrivial :
  smhist_ok sm_new [SmReg [97] true; SmReg [98] false; SmReg [97] false; SmGc []; SmReg [98] false; SmGet 0] /\
  exists sm, sm_run sm_new [SmReg [97] true; SmReg [98] false; SmReg [97] false; SmGc []; SmReg [98] false; SmGet 0] =
  Ok (sm, [SmId 0; SmId 1; SmId 0; SmDone; SmId 2; SmStr (Some [97])]).
Proof. split; [vm_compute; repeat constructor; congruence|]. eexists. vm_compute. reflexivity. Qed.

(** Beyond that bound uniqueness fails: with 65534 live strings before it, a registration can
    leave the manager in a state where the next new string gets the id of a live one. *)
Theorem C08_ids_collide_at_limit_refuted :
  exists ops sm outs sm', sm_run sm_new ops = Ok (sm, outs) /\
    sm_run sm [SmReg [98] false; SmReg [99] false; SmReg [98] false; SmGet 65535] =
    Ok (sm', [SmId 65535; SmId 65535; SmId 65535; SmStr (Some [99])]).
Proof. exact ids_may_collide. Qed.
Print Assumptions C08_ids_collide_at_limit_refuted.

(** C09.  After any such history, a collection with the given marks keeps exactly the
    protected strings and the marked ones, under the same ids. *)
Theorem C09_string_gc_exact :
  forall ops marks, smhist_ok sm_new ops -> Forall (fun i => 0 <= i < 65536) marks ->
  exists sm outs M sm', sm_run sm_new ops = Ok (sm, outs) /\ sm_trace (fun _ => None) ops outs M /\
    sm_gc sm marks = Ok sm' /\
    (forall s i, 0 <= i < 65536 ->
       (sm_get sm' i = Some s <-> exists q, M s = Some (i, q) /\ (q = true \/ In i marks))) /\
    (forall s i, s2i_get (str2id sm') s = Some i <-> exists q, M s = Some (i, q) /\ (q = true \/ In i marks)).
Proof.
  intros ops marks H HF. destruct SInv_new as [H1 H2].
  destruct (sm_run_ok ops sm_new _ H1 H2 H) as (sm & outs & M & E & HT & HI & HD).
  destruct (gc_ok sm M marks HI HD HF) as (sm' & M' & EG & [_ HS] & HI' & _).
  exists sm, outs, M, sm'. split; [auto|split; [auto|split; [auto|]]].
  assert (HX : forall s i, (exists q, M' s = Some (i, q)) <-> exists q, M s = Some (i, q) /\ (q = true \/ In i marks)).
  { intros s i. rewrite HS. destruct (M s) as [[j q]|]; [|split; [intros [? HH]; discriminate HH|intros (? & HH & _); discriminate HH]].
    destruct q; cbn [orb].
    - split; [intros (q & Hq); inversion Hq; subst; eauto|intros (q & Hq & _); inversion Hq; subst; eauto].
    - destruct (existsb (Z.eqb j) marks) eqn:EX.
      + apply existsb_exists in EX as (k & Hk & Ek). apply Z.eqb_eq in Ek; subst.
        split; [intros (q & Hq); inversion Hq; subst; eauto|intros (q & Hq & _); inversion Hq; subst; eauto].
      + split; [intros (q & Hq); discriminate|]. intros (q & Hq & [->|Hin]); inversion Hq; subst.
        exfalso. assert (existsb (Z.eqb i) marks = true) by (apply existsb_exists; exists i; split; auto; apply Z.eqb_refl).
        congruence. }
  split.
  - intros s i Hi. rewrite <- HX. destruct (get_ok sm' M' i HI' Hi) as [(r & Hr & HG) _].
    inversion Hr; subst. apply HG.
  - intros s i. rewrite <- HX. rewrite (si_s2i _ _ HI'). destruct (M' s) as [[j q]|]; cbn; split.
    + intro HH; inversion HH; subst; eauto.
    + intros (q0 & Hq); inversion Hq; auto.
    + discriminate.
    + intros (q0 & Hq); discriminate.
Qed.
Print Assumptions C09_string_gc_exact.

Example C09_nontrivial :
  exists sm sm', sm_run sm_new [SmReg [97] true; SmReg [98] false; SmReg [99] false] =
      Ok (sm, [SmId 0; SmId 1; SmId 2]) /\ sm_gc sm [2] = Ok sm' /\
    map (sm_get sm') [0; 1; 2] = [Some [97]; None; Some [99]].
Proof. eexists _, _. split; [vm_compute; reflexivity|]. split; [vm_compute; reflexivity|vm_compute; reflexivity]. Qed.

(** C10.  Registration always returns: refuted.  A reachable manager exists (65536 live
    strings) on which registering any new string never terminates. *)
Theorem C10_register_terminates_refuted :
  exists ops sm outs, sm_run sm_new ops = Ok (sm, outs) /\
    s2i_get (str2id sm) [98] = None /\
    forall s p, s2i_get (str2id sm) s = None -> forall fuel, sm_register fuel sm s p = Hang.
Proof. exact register_may_hang. Qed.
Print Assumptions C10_register_terminates_refuted.

(** It does return when fewer than 65534 strings are live. *)
Theorem C10_register_terminates_partial :
  forall ops s p, smhist_ok sm_new (ops ++ [SmReg s p]) ->
  exists sm outs, sm_run sm_new (ops ++ [SmReg s p]) = Ok (sm, outs).
Proof.
  intros ops s p H. destruct (C08_string_ids_stable_and_unique _ H) as (sm & outs & M & E & _). eauto.
Qed.
Print Assumptions C10_register_terminates_partial.
Example C10_nontrivial : smhist_ok sm_new ([SmReg [97] true] ++ [SmReg [98] false]).
Proof. vm_compute. repeat constructor. Qed.
