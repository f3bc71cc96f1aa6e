(** C05-C07: dictionaries and ordered sets. *)
From Verif Require Import Base Dict DictSpec DictRun DictProofs BSet BSetProofs.

(** C05.  For every hash function and comparator that agree with an equivalence [eqb] on keys,
    every number of buckets and every history, the dictionary never fails and answers as the
    finite map does. *)
Theorem C05_dict_is_finite_map :
  forall (K V : Type) (hashf : K -> Z) (keycmpf : K -> K -> Z) (eqb : K -> K -> bool),
  eqb_equiv eqb ->
  (forall a b, keycmpf a b = 0 <-> eqb a b = true) ->
  (forall a b, eqb a b = true -> hashf a = hashf b) ->
  forall (nb : Z) (ops : list (mop K V)), 0 < nb ->
  exists d outs gone, dict_run hashf keycmpf (dict_new nb) ops = Ok (d, outs, gone) /\
    Forall2 out_agrees outs (snd (m_run eqb [] ops)) /\
    Permutation (dict_entries d) (fst (m_run eqb [] ops)).
Proof. exact @dict_refines_map. Qed.
Print Assumptions C05_dict_is_finite_map.

(** The key types used by Buzz meet the hypotheses: uint16/uint32/int32 keys, int16-hashed
    string ids, and C strings. *)
Theorem C05_int_keys : forall (V : Type) (nb : Z) (ops : list (mop Z V)), 0 < nb ->
  exists d outs gone, dict_run uintkeyhash intkeycmp (dict_new nb) ops = Ok (d, outs, gone) /\
    Forall2 out_agrees outs (snd (m_run Z.eqb [] ops)) /\
    Permutation (dict_entries d) (fst (m_run Z.eqb [] ops)).
Proof.
  intros V nb ops H.
  exact (dict_refines_map _ _ _ Zeqb_equiv intkeycmp_eqb uintkeyhash_eqb nb ops H).
Qed.
Print Assumptions C05_int_keys.
Theorem C05_int16_keys : forall (V : Type) (nb : Z) (ops : list (mop Z V)), 0 < nb ->
  exists d outs gone, dict_run int16keyhash int16keycmp (dict_new nb) ops = Ok (d, outs, gone) /\
    Forall2 out_agrees outs (snd (m_run u16_eqb [] ops)) /\
    Permutation (dict_entries d) (fst (m_run u16_eqb [] ops)).
Proof.
  intros V nb ops H.
  exact (dict_refines_map _ _ _ u16_eqb_equiv int16keycmp_eqb int16keyhash_eqb nb ops H).
Qed.
Print Assumptions C05_int16_keys.
Theorem C05_string_keys : forall (V : Type) (nb : Z) (ops : list (mop (list Z) V)), 0 < nb ->
  exists d outs gone, dict_run strkeyhash strcmp (dict_new nb) ops = Ok (d, outs, gone) /\
    Forall2 out_agrees outs (snd (m_run str_eqb [] ops)) /\
    Permutation (dict_entries d) (fst (m_run str_eqb [] ops)).
Proof.
  intros V nb ops H.
  exact (dict_refines_map _ _ _ str_eqb_equiv strcmp_str_eqb strkeyhash_eqb nb ops H).
Qed.
Print Assumptions C05_string_keys.

Example C05_a_run :
  let ops := [MSet 3 30; MSet 13 130; MSet 3 31; MGet 3; MGet 4; MRemove 13; MRemove 13;
              MSize; MForeach] in
  m_run Z.eqb [] ops = ([(3, 31)], [MUnit; MUnit; MUnit; MVal (Some 31); MVal None; MBool true;
                                    MBool false; MNum 1; MEntries [(3, 31)]]).
Proof. reflexivity. Qed.

(** C06.  At every point of every history the entries handed to the dictionary are, as a
    multiset, the ones given to the destructor plus the ones still in the table; after
    buzzdict_destroy they have all been given to it, each exactly once. *)
Theorem C06_dict_entries_destroyed_once :
  forall (K V : Type) (hashf : K -> Z) (keycmpf : K -> K -> Z) (eqb : K -> K -> bool),
  eqb_equiv eqb ->
  (forall a b, keycmpf a b = 0 <-> eqb a b = true) ->
  (forall a b, eqb a b = true -> hashf a = hashf b) ->
  forall (nb : Z) (ops : list (mop K V)), 0 < nb ->
  exists d outs gone, dict_run hashf keycmpf (dict_new nb) ops = Ok (d, outs, gone) /\
    Permutation (written ops) (gone ++ dict_entries d) /\
    Permutation (written ops) (gone ++ dict_destroy d).
Proof. exact @dict_destroyed_once. Qed.
Print Assumptions C06_dict_entries_destroyed_once.
Example C06_a_run :
  exists d, dict_run uintkeyhash intkeycmp (dict_new 10)
              [MSet 3 30; MSet 13 130; MSet 3 31; MRemove 13] =
            Ok (d, [MUnit; MUnit; MUnit; MBool true], [(3, 30); (13, 130)]) /\
            dict_destroy d = [(3, 31)].
Proof. eexists. split; vm_compute; reflexivity. Qed.

(** C07.  For every total order and every history: lookup, iteration (each element once) and
    size agree with the mathematical set.  *)
Theorem C07_set_is_mathematical_set :
  forall (A : Type) (cmp : A -> A -> Z), total_order cmp -> forall ops : list (sop A),
  let s := bset_run cmp bset_new ops in
  (forall x, member ops x -> bset_find cmp s x = Some x) /\
  (forall x, ~ member ops x -> bset_find cmp s x = None) /\
  NoDup (bset_foreach s) /\ (forall x, In x (bset_foreach s) <-> member ops x) /\
  bs_size s = wrap32 (zlen (bset_foreach s)).
Proof. exact @bset_is_set. Qed.
Print Assumptions C07_set_is_mathematical_set.
Example C07_int_order : total_order intkeycmp.
Proof.
  unfold intkeycmp, total_order. repeat split; intros; repeat match goal with H : context [if ?b then _ else _] |- _ => destruct b eqn:? | |- context [if ?b then _ else _] => destruct b eqn:? end; lia.
Qed.

(** Finding: with a destructor, removing an element that has two subtrees also hands the
    element that replaces it to the destructor, although it stays in the set (and is handed
    over again when the set is destroyed). *)
Theorem C07_destructor_called_on_live_element_refuted :
  exists ops s g, s = bset_run intkeycmp bset_new ops /\
    snd (bset_remove intkeycmp s 2) = g /\
    In 3 g /\ bset_find intkeycmp (fst (bset_remove intkeycmp s 2)) 3 = Some 3 /\
    In 3 (bset_destroy (fst (bset_remove intkeycmp s 2))).
Proof.
  exists [SInsert 2; SInsert 1; SInsert 3]. do 2 eexists. split; [reflexivity|].
  split; [vm_compute; reflexivity|]. vm_compute. intuition.
Qed.
Print Assumptions C07_destructor_called_on_live_element_refuted.
