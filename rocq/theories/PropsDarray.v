(** C01-C04: property theorems about dynamic arrays (model: Darray.v; specification:
    DarraySpec.v). *)
From Verif Require Import Base Darray DarraySpec DarrayRun DarrayProofs DarraySort DarrayOut.

(** C01.  For every initial capacity, element size and history of operations inside their
    documented range (storage below 4 GiB) the array answers every operation as the plain
    list does, never aborts, hangs or touches memory outside its storage, and its size
    never exceeds its capacity. *)
Theorem C01_darray_behaves_as_list : forall (A : Type) (cap esz : Z) (ops : list (dop A)),
  0 < cap -> 0 < esz -> cap * esz < 2 ^ 32 -> history_ok esz [] ops ->
  exists d0 d, da_new cap esz = Ok d0 /\
    da_run d0 ops = Ok (d, snd (spec_run [] ops)) /\
    da_foreach d = Ok (fst (spec_run [] ops)) /\
    d_size d = zlen (fst (spec_run [] ops)) /\
    d_size d <= d_cap d /\ zlen (d_mem d) = d_cap d.
Proof. exact @darray_refines_list. Qed.
Print Assumptions C01_darray_behaves_as_list.

Example C01_history : list (dop Z) :=
  [OpPush 1; OpPush 2; OpInsert 0 7; OpSet 1 9; OpRemove 2; OpPush 4; OpClone; OpPop;
   OpGet 1; OpLast; OpForeach; OpClear 3; OpSize].
Example C01_hypotheses_met : history_ok 4 [] C01_history.
Proof. repeat split; try (vm_compute; congruence); vm_compute; discriminate. Qed.
Example C01_outputs : snd (spec_run [] C01_history) =
  [OutUnit; OutUnit; OutUnit; OutUnit; OutGone [2]; OutUnit; OutUnit; OutGone [4];
   OutElem 9; OutElem 9; OutElems [7; 9]; OutGone [7; 9]; OutSize 0].
Proof. reflexivity. Qed.

(** C02 refuted: buzzdarray.h documents that buzzdarray_set() outside the array sets nothing.
    In fact every such call grows the array to pos+1 elements (the elements between the old
    end and pos are whatever was in memory: [gap]). *)
Theorem C02_out_of_range_set_grows_refuted :
  forall (A : Type) (cap esz : Z) (ops : list (dop A)) (pos : Z) (v : A),
  0 < cap -> 0 < esz -> cap * esz < 2 ^ 32 -> history_ok esz [] ops ->
  let l := fst (spec_run [] ops) in
  zlen l <= pos -> 2 * (pos + 1) * esz < 2 ^ 32 ->
  exists d0 d d' gap rest, da_new cap esz = Ok d0 /\
    da_run d0 ops = Ok (d, snd (spec_run [] ops)) /\
    da_set d pos v = Ok d' /\ d_size d' = pos + 1 /\
    d_mem d' = map Some l ++ gap ++ [Some v] ++ rest /\ zlen gap = pos - zlen l.
Proof.
  intros A cap esz ops pos v Hc He Hb HH l Hp Hb2.
  destruct (new_rep (A:=A) cap esz Hc He Hb) as (d0 & Hn & HR).
  destruct (da_run_refines ops d0 [] esz HR HH) as (d & Hrun & HR').
  destruct (set_out_grows d _ esz pos v HR' Hp Hb2) as (d' & gap & rest & H1 & H2 & H3 & H4).
  exists d0, d, d', gap, rest. repeat split; auto.
Qed.
Print Assumptions C02_out_of_range_set_grows_refuted.

(** ... and an element in the gap is not even initialised: reading it is undefined. *)
Theorem C02_gap_uninitialised_refuted :
  exists d0 d1 : darray Z, da_new 10 4 = Ok d0 /\ da_set d0 2 5 = Ok d1 /\
    d_size d1 = 3 /\ da_get d1 0 = UB /\ da_foreach d1 = UB.
Proof. do 2 eexists. repeat split; vm_compute; reflexivity. Qed.
Print Assumptions C02_gap_uninitialised_refuted.

(** C03.  Sorting terminates, stays inside the array, permutes the elements for every
    comparator, and sorts for every comparator that is a total preorder. *)
Theorem C03_sort_correct :
  forall (A : Type) (cmp : A -> A -> Z) (cap esz : Z) (ops : list (dop A)),
  0 < cap -> 0 < esz -> cap * esz < 2 ^ 32 -> history_ok esz [] ops ->
  exists d0 d d' l', da_new cap esz = Ok d0 /\ da_run d0 ops = Ok (d, snd (spec_run [] ops)) /\
    da_sort cmp d = Ok d' /\ da_foreach d' = Ok l' /\
    Permutation (fst (spec_run [] ops)) l' /\
    (total_preorder cmp -> sorted_by cmp l').
Proof.
  intros A cmp cap esz ops Hc He Hb HH.
  destruct (new_rep (A:=A) cap esz Hc He Hb) as (d0 & Hn & HR).
  destruct (da_run_refines ops d0 [] esz HR HH) as (d & Hrun & HR').
  destruct (da_sort_ok cmp d _ esz HR') as (d' & l' & H1 & H2 & H3 & H4).
  exists d0, d, d', l'. repeat split; auto. eapply foreach_ok; eauto.
Qed.
Print Assumptions C03_sort_correct.

Example C03_int_order_is_total_preorder :
  total_preorder (fun a b : Z => if a <? b then -1 else if a >? b then 1 else 0).
Proof.
  split; intros.
  - destruct (a <? b) eqn:?, (b <? a) eqn:?, (a >? b) eqn:?, (b >? a) eqn:?; lia.
  - destruct (a <? b) eqn:?, (b <? c) eqn:?, (a >? b) eqn:?, (b >? c) eqn:?,
      (a <? c) eqn:?, (a >? c) eqn:?; lia.
Qed.

(** C04.  find returns the first position whose element compares equal, or the size. *)
Theorem C04_find_first :
  forall (A : Type) (cmp : A -> A -> Z) (x : A) (cap esz : Z) (ops : list (dop A)),
  0 < cap -> 0 < esz -> cap * esz < 2 ^ 32 -> history_ok esz [] ops ->
  let l := fst (spec_run [] ops) in
  exists d0 d p, da_new cap esz = Ok d0 /\ da_run d0 ops = Ok (d, snd (spec_run [] ops)) /\
    da_find cmp d x = Ok p /\ 0 <= p <= zlen l /\
    (forall j a, 0 <= j < p -> nth_error l (Z.to_nat j) = Some a -> cmp x a <> 0) /\
    (p < zlen l -> exists a, nth_error l (Z.to_nat p) = Some a /\ cmp x a = 0).
Proof.
  intros A cmp x cap esz ops Hc He Hb HH l.
  destruct (new_rep (A:=A) cap esz Hc He Hb) as (d0 & Hn & HR).
  destruct (da_run_refines ops d0 [] esz HR HH) as (d & Hrun & HR').
  destruct (da_find_first d _ esz cmp x HR') as (p & H1 & H2 & H3 & H4).
  exists d0, d, p. repeat split; auto; apply H2.
Qed.
Print Assumptions C04_find_first.
