(** Properties C17-C18: comparison and hashing of Buzz objects. *)
From Verif Require Import Base ListLemmas Float FloatProofs Dict PDict Strman StrmanSpec Obj ObjSpec ObjProofs.

Lemma lib_lex (lib : libm) s t : (c_strcmp lib s t < 0 <-> lex_lt s t) /\ (c_strcmp lib s t = 0 <-> s = t) /\ (c_strcmp lib s t > 0 <-> lex_lt t s).
Proof.
  destruct (strcmp_lex s t) as (A & B & C). rewrite <- (c_strcmp_sign lib s t) in A, B, C. pose proof (Z.sgn_spec (c_strcmp lib s t)) as HS.
  split; [rewrite <- A|split; [rewrite <- B|rewrite <- C]]; lia.
Qed.

(** [cmp] orders the class [P] by [lt] with equality [eq]. *)
Definition orders (cmp : obj -> obj -> res Z) {A} (inj : A -> obj) (P : A -> Prop) (lt eq : A -> A -> Prop) : Prop :=
  forall a b, P a -> P b -> exists c, cmp (inj a) (inj b) = Ok c /\
    (c < 0 <-> lt a b) /\ (c = 0 <-> eq a b) /\ (c > 0 <-> lt b a).

(** C17.  Integers compare by value, floats other than NaN by numeric value, strings
    lexicographically by bytes, whatever strcmp the C library has; nil equals only nil. *)
Theorem C17_comparison_agrees_with_order :
  forall lib : libm, let cmp := obj_cmp_by (c_strcmp lib) in
  orders cmp OInt (fun _ => True) Z.lt eq /\
  orders cmp OFloat (fun f => valid_f32 f = true /\ is_nan f = false)
         (fun f g => fval f < fval g) (fun f g => fval f = fval g) /\
  (forall i j, orders (fun a b => match a, b with OStr _ s, OStr _ t => cmp (OStr i s) (OStr j t) | _, _ => Abort end)
       (OStr 0) (fun _ => True) lex_lt eq) /\
  (forall o, cmp ONil o = Ok 0 <-> o = ONil) /\ (forall o, cmp o ONil = Ok 0 <-> o = ONil).
Proof.
  intros lib cmp. splits.
  - intros a b _ _. eexists. split; [reflexivity|]. pose proof (intkeycmp_spec a b). cbn. lia.
  - intros f g [V1 N1] [V2 N2]. eexists. split; [reflexivity|]. rewrite float_cmp_val by auto.
    pose proof (intkeycmp_spec (fval f) (fval g)). lia.
  - intros i j s t _ _. eexists. split; [reflexivity|]. apply lib_lex.
  - intro o. destruct o; cbn; split; congruence.
  - intro o. destruct o; cbn; split; congruence.
Qed.
Print Assumptions C17_comparison_agrees_with_order.

(** The classes on which objects are comparable. *)
Definition one_class (a b c : obj) : Prop :=
  match a, b, c with
  | OInt _, OInt _, OInt _ => True
  | OFloat f, OFloat g, OFloat h =>
      valid_f32 f = true /\ valid_f32 g = true /\ valid_f32 h = true /\
      is_nan f = false /\ is_nan g = false /\ is_nan h = false
  | OStr _ _, OStr _ _, OStr _ _ => True
  | OTab _, OTab _, OTab _ => True
  | _, _, _ => False
  end.
(** It is a total order inside each class: defined, reflexive, antisymmetric, transitive. *)
Theorem C17_total_order_in_class :
  forall (lib : libm) a b c, one_class a b c -> let cmp := obj_cmp_by (c_strcmp lib) in
  cmp a a = Ok 0 /\
  exists x x' y z, cmp a b = Ok x /\ cmp b a = Ok x' /\ cmp b c = Ok y /\ cmp a c = Ok z /\ Z.sgn x' = - Z.sgn x /\
    (x <= 0 -> y <= 0 -> z <= 0) /\ (x <= 0 -> y < 0 -> z < 0) /\ (x < 0 -> y <= 0 -> z < 0) /\
    (x = 0 -> y = 0 -> z = 0).
Proof.
  assert (HI : forall p q r, intkeycmp p p = 0 /\ intkeycmp q p = - intkeycmp p q /\
     (intkeycmp p q <= 0 -> intkeycmp q r <= 0 -> intkeycmp p r <= 0) /\
     (intkeycmp p q <= 0 -> intkeycmp q r < 0 -> intkeycmp p r < 0) /\
     (intkeycmp p q < 0 -> intkeycmp q r <= 0 -> intkeycmp p r < 0) /\
     (intkeycmp p q = 0 -> intkeycmp q r = 0 -> intkeycmp p r = 0)).
  { intros p q r. unfold intkeycmp.
    destruct (p <? p) eqn:A1, (p >? p) eqn:A2, (p <? q) eqn:A3, (p >? q) eqn:A4, (q <? p) eqn:A5, (q >? p) eqn:A6,
       (q <? r) eqn:A7, (q >? r) eqn:A8, (p <? r) eqn:A9, (p >? r) eqn:A10; lia. }
  intros lib a b c H cmp. unfold cmp. clear cmp. destruct a; try contradiction; destruct b; try contradiction; destruct c; try contradiction; cbn [obj_cmp_by].
  - destruct (HI z z0 z1) as (-> & E & R). split; [auto|]. eexists _, _, _, _. splits; auto; try apply R. rewrite E, Z.sgn_opp. reflexivity.
  - destruct H as (V1 & V2 & V3 & N1 & N2 & N3). rewrite !float_cmp_val by auto.
    destruct (HI (fval f) (fval f0) (fval f1)) as (-> & E & R). split; [auto|]. eexists _, _, _, _. splits; auto; try apply R.
    rewrite E, Z.sgn_opp. reflexivity.
  - destruct (lib_lex lib s s) as (_ & E0 & _). assert (C0 : c_strcmp lib s s = 0) by (apply E0; reflexivity). split; [f_equal; exact C0|].
    destruct (lib_lex lib s s0) as (L1 & E1 & G1). destruct (lib_lex lib s0 s) as (L1' & E1' & G1'). destruct (lib_lex lib s0 s1) as (L2 & E2 & G2).
    destruct (lib_lex lib s s1) as (L3 & E3 & G3).
    eexists _, _, _, _. split; [reflexivity|]. split; [reflexivity|]. split; [reflexivity|]. split; [reflexivity|].
    assert (C1 : c_strcmp lib s s0 < 0 \/ c_strcmp lib s s0 = 0 \/ c_strcmp lib s s0 > 0) by lia.
    assert (C2 : c_strcmp lib s0 s1 < 0 \/ c_strcmp lib s0 s1 = 0 \/ c_strcmp lib s0 s1 > 0) by lia.
    split.
    { destruct C1 as [C1|[C1|C1]].
      - pose proof (proj2 G1' (proj1 L1 C1)). rewrite (Z.sgn_neg (c_strcmp lib s s0)), (Z.sgn_pos (c_strcmp lib s0 s)) by lia. reflexivity.
      - rewrite C1, (proj2 E1') by (symmetry; apply E1; exact C1). reflexivity.
      - pose proof (proj2 L1' (proj1 G1 C1)). rewrite (Z.sgn_pos (c_strcmp lib s s0)), (Z.sgn_neg (c_strcmp lib s0 s)) by lia. reflexivity. }
    destruct C1 as [C1|[C1|C1]]; [|apply E1 in C1 as C1'; subst s0|lia].
    + destruct C2 as [C2|[C2|C2]]; [|apply E2 in C2 as C2'; subst s1; lia|lia].
      assert (c_strcmp lib s s1 < 0). { apply L3. eapply lex_trans; [apply L1|apply L2]; auto. } lia.
    + lia.
  - destruct (HI a a0 a1) as (-> & E & R). split; [auto|]. eexists _, _, _, _. splits; auto; try apply R. rewrite E, Z.sgn_opp. reflexivity.
Qed.
Print Assumptions C17_total_order_in_class.

Example C17_nontrivial :
  one_class (OFloat (f_of_Z 3)) (OFloat (S754_zero true)) (OFloat (S754_infinity true)) /\
  obj_cmp (OFloat (f_of_Z 3)) (OFloat (S754_zero true)) = Ok 1 /\
  obj_cmp (OStr 0 [97; 98]) (OStr 5 [97; 99]) = Ok (-1).
Proof. vm_compute. repeat split. Qed.

(** NaN, excluded above, compares equal to every number. *)
Theorem C17_nan_equals_every_number :
  forall sc, (forall z, obj_cmp_by sc (OFloat S754_nan) (OInt z) = Ok 0) /\ (forall f, obj_cmp_by sc (OFloat S754_nan) (OFloat f) = Ok 0).
Proof.
  intro sc. assert (H : forall f, float_cmp S754_nan f = 0). { intros []; reflexivity. }
  split; intros; cbn [obj_cmp_by]; rewrite H; reflexivity.
Qed.
Print Assumptions C17_nan_equals_every_number.

(** C18.  Inside a class of keys (integers, floats above -1 and below 2^32, strings that do
    not look like numbers: ObjSpec.v) comparison says "equal" exactly for equal numbers or
    equal strings, and equal keys have equal hashes. *)
Theorem C18_equal_keys_hash_equal_partial :
  forall fl sidof a b, key_class fl sidof a = true -> key_class fl sidof b = true ->
  exists c h h', obj_cmp a b = Ok c /\ table_hash a = Ok h /\ table_hash b = Ok h' /\
    (c = 0 <-> same_key a b = true) /\ (c = 0 -> h = h').
Proof.
  intros fl sidof a b Ha Hb. pose proof (good_class fl sidof) as G.
  destruct (gc_cmp _ _ _ G a b Ha Hb) as (c & Hc & HE). destruct (gc_hash _ _ _ G a Ha) as (h & Hh & _).
  destruct (gc_hash _ _ _ G b Hb) as (h' & Hh' & _). exists c, h, h'. splits; auto.
  intro H0. apply HE in H0. pose proof (gc_eqh _ _ _ G a b Ha Hb H0). congruence.
Qed.
Print Assumptions C18_equal_keys_hash_equal_partial.

(** Tables built by any sequence of writes and removals. *)
Inductive top := TSet (k v : obj) | TDel (k : obj).
Definition top_key (o : top) : obj := match o with TSet k _ => k | TDel k => k end.
Fixpoint top_run (t : table) (ops : list top) : res table :=
  match ops with
  | [] => Ok t
  | TSet k v :: r => t' <- tab_set t k v ;; top_run t' r
  | TDel k :: r => t' <- tab_remove t k ;; top_run t' r
  end.
(** What the last write to an equal key left. *)
Fixpoint top_last (ops : list top) (k : obj) (cur : option obj) : option obj :=
  match ops with
  | [] => cur
  | TSet k' v :: r => top_last r k (if same_key k' k then Some v else cur)
  | TDel k' :: r => top_last r k (if same_key k' k then None else cur)
  end.
(** Reads see the last write through any equal key of the class. *)
Theorem C18_reads_see_writes_partial :
  forall fl sidof ops k,
    Forall (fun o => key_class fl sidof (top_key o) = true) ops -> key_class fl sidof k = true ->
    exists t, top_run tab_new ops = Ok t /\ tab_get t k = Ok (top_last ops k None).
Proof.
  intros fl sidof ops k HF Hk. pose proof (good_class fl sidof) as G.
  assert (HG : forall ops t cur, Forall (fun o => key_class fl sidof (top_key o) = true) ops ->
     twf table_hash (key_class fl sidof) t -> tab_get t k = Ok cur ->
     exists t', top_run t ops = Ok t' /\ tab_get t' k = Ok (top_last ops k cur)).
  { clear ops HF. induction ops as [|o ops IH]; intros t cur HF HT HC; cbn [top_run top_last]; [eauto|].
    inversion HF as [|? ? Ho HF']; subst. destruct o as [k' v|k']; cbn [top_key] in Ho.
    - destruct (tab_set_get _ _ _ G t k' v k HT Ho Hk) as (t' & E & HT' & r & Er & Eg).
      unfold tab_set. rewrite E. cbn [bind]. apply IH; auto. unfold tab_get in *. rewrite HC in Er. inversion Er; subst. auto.
    - destruct (tab_remove_get _ _ _ G t k' k HT Ho Hk) as (t' & E & HT' & r & Er & Eg).
      unfold tab_remove. rewrite E. cbn [bind]. apply IH; auto. unfold tab_get in *. rewrite HC in Er. inversion Er; subst. auto. }
  apply HG; auto.
  - apply (twf_new _ _ _ G).
  - unfold tab_get. rewrite (rget_pget _ _ _ G) by (auto; apply (twf_new _ _ _ G)).
    unfold tab_new. rewrite (PDictKeys.get_new _ _ _ (good_k _ _ _ G)) by lia. reflexivity.
Qed.
Print Assumptions C18_reads_see_writes_partial.

Example C18_nontrivial :
  let sidof := fun s : str => zlen s in
  key_class true sidof (OInt 3) = true /\ key_class true sidof (OFloat (f_of_Z 3)) = true /\
  key_class true sidof (OStr 2 [97; 98]) = true /\ same_key (OInt 3) (OFloat (f_of_Z 3)) = true /\
  match top_run tab_new [TSet (OInt 3) (OInt 1); TSet (OStr 2 [97; 98]) ONil; TSet (OFloat (f_of_Z 3)) (OInt 2)] with
  | Ok t => tab_get t (OInt 3) = Ok (Some (OInt 2))
  | _ => False
  end.
Proof. vm_compute. repeat split. Qed.

(** Across classes it fails: 1 and "1" are equal but land in the bucket of the number and of
    the string's id; 16777217 equals 16777216.0 but hashes differently; and since equality is
    not transitive ("1" = 1 = 1.0, "1" <> 1.0) a read may miss the write just made. *)
Theorem C18_equal_keys_refuted :
  (obj_cmp (OInt 1) (OStr 0 [49]) = Ok 0 /\ table_hash (OInt 1) <> table_hash (OStr 0 [49])) /\
  (obj_cmp (OInt 16777217) (OFloat (f_of_Z 16777216)) = Ok 0 /\
   table_hash (OInt 16777217) <> table_hash (OFloat (f_of_Z 16777216))) /\
  (exists t t', top_run tab_new [TSet (OStr 1 [49]) (OInt 7); TSet (OFloat (f_of_Z 1)) (OInt 8)] = Ok t /\
     tab_set t (OInt 1) (OInt 9) = Ok t' /\ tab_get t' (OInt 1) = Ok (Some (OInt 8))).
Proof.
  split; [vm_compute; split; congruence|]. split; [vm_compute; split; congruence|]. eexists _, _. split; [vm_compute; reflexivity|]. split; [vm_compute; reflexivity|]. vm_compute; reflexivity.
Qed.
Print Assumptions C18_equal_keys_refuted.
