(** The result of strcmp and comparisons of strings: C111, C106 (indexoffirst).
    C says of the result of strcmp only if it is negative, 0 or positive.  The VM also asks if the result of buzzobj_cmp, which for
    strings is that of strcmp, is 2 or 1. *)
From Coq Require Import String.
From Verif Require Import Base ListLemmas Float FloatProofs Dict PDict DictProofs Strman StrmanSpec StrmanProofs Obj ObjSpec ObjProofs PropsObj Instr Vm VmSpec VmProofs VmFrames PropsVm PropsVmArith
  Text CFunSpec CFunProofs PropsStrlib Mathlib MathSpec PropsMath.
Local Open Scope Z_scope. Local Open Scope list_scope.

(** Dictionaries only ask if it is 0: tables and virtual stigmergies are the same with every strcmp. *)
Lemma by_zero (lib : libm) {A} a b (x y : res A) :
  (c <- obj_cmp_by (c_strcmp lib) a b ;; if c =? 0 then x else y) = (c <- obj_cmp a b ;; if c =? 0 then x else y).
Proof.
  assert (H : forall s t, (c_strcmp lib s t =? 0) = (strcmp s t =? 0)).
  { intros s t. rewrite <- (c_strcmp_sign lib s t). pose proof (Z.sgn_spec (c_strcmp lib s t)). lia. }
  unfold obj_cmp. destruct a, b; cbn [obj_cmp_by bind]; rewrite ?H; auto; match goal with |- context [sprintf30 ?q] => destruct (sprintf30 q) end; cbn [bind]; rewrite ?H; auto.
Qed.
Theorem C111_dictionaries :
  forall (lib : libm) V hash (t : pdict obj V) k,
    rget hash (obj_cmp_by (c_strcmp lib)) t k = rget hash obj_cmp t k /\
    (forall x, rset hash (obj_cmp_by (c_strcmp lib)) t k x = rset hash obj_cmp t k x) /\
    rremove hash (obj_cmp_by (c_strcmp lib)) t k = rremove hash obj_cmp t k.
Proof.
  intros lib V hash t k.
  assert (F : forall l : list (obj * V), rfind (obj_cmp_by (c_strcmp lib)) k l = rfind obj_cmp k l).
  { induction l as [|e l IH]; cbn [rfind]; auto. rewrite by_zero, IH. reflexivity. }
  assert (D : forall l : list (obj * V), rdel (obj_cmp_by (c_strcmp lib)) k l = rdel obj_cmp k l).
  { induction l as [|e l IH]; cbn [rdel]; auto. rewrite by_zero, IH. reflexivity. }
  unfold rget, rset, rremove. split; [|split; [intro x|]]; destruct (rslot hash t k); cbn [bind]; auto; rewrite D; reflexivity.
Qed.
Print Assumptions C111_dictionaries.

(** What a comparison of two strings should say. *)
Definition relation_of (o : opcode) (s t : str) : Prop :=
  match o with
  | I_EQ => s = t | I_NEQ => s <> t
  | I_LT => lex_lt s t | I_LTE => lex_lt s t \/ s = t
  | I_GT => lex_lt t s | I_GTE => lex_lt t s \/ s = t
  | _ => False
  end.
Definition comparisons : list opcode := [I_EQ; I_NEQ; I_GT; I_GTE; I_LT; I_LTE].
Lemma compare_step X flist (lib : libm) size code (v : vm X) o a b rest c : In o comparisons -> can_run code size v o -> stack v = b :: a :: rest -> obj_cmp_by (c_strcmp lib) a b = Ok c ->
  vm_step flist lib code size v = Ok (next v 1 (of_bool ((c =? 2) || match o with I_EQ => c =? 0 | I_NEQ => negb (c =? 0) | I_LT => c <? 0 | I_LTE => c <=? 0 | I_GT => c >? 0 | _ => c >=? 0 end) :: rest)).
Proof.
  intros HO HC HS HB. rewrite (step_at flist lib code size v _ (proj1 HC)). unfold comparisons in HO. cbn [In] in HO.
  repeat (destruct HO as [<-|HO]); [..|destruct HO]; cbn [exec];
    (eapply (op_inc_next code size v _ _ rest (fun v => vm_cmp lib v _) HC); [reflexivity|]; rewrite (cmp_any lib v _ a b rest _ HS HB); f_equal; f_equal; f_equal; f_equal; lia).
Qed.
(** A comparison of strings is the lexicographic one when strcmp does not give 2 for them.  Missing: the next theorem. *)
Theorem C111_comparison_partial :
  forall X flist (lib : libm) size code (v : vm X) o i j s t rest,
    In o comparisons -> can_run code size v o -> stack v = OStr j t :: OStr i s :: rest -> c_strcmp lib s t <> 2 ->
    exists b, vm_step flist lib code size v = Ok (next v 1 (OInt b :: rest)) /\ (b = 1 /\ relation_of o s t \/ b = 0 /\ ~ relation_of o s t).
Proof.
  intros X flist lib size code v o i j s t rest HO HC HS H2. destruct (lib_lex lib s t) as (L & E & G).
  rewrite (compare_step X flist lib size code v o _ _ rest _ HO HC HS eq_refl). replace (c_strcmp lib s t =? 2) with false by lia. cbn [orb].
  assert (HB : forall (q : bool) (P : Prop), (q = true <-> P) -> exists b, Ok (next v 1 (of_bool q :: rest)) = Ok (next v 1 (OInt b :: rest)) /\ (b = 1 /\ P \/ b = 0 /\ ~ P)).
  { intros q P HP. exists (if q then 1 else 0). split; [destruct q; reflexivity|]. destruct q; [left; split; auto; apply HP; auto|right; split; auto; intro F; apply HP in F; discriminate]. }
  unfold comparisons in HO. cbn [In] in HO. repeat (destruct HO as [<-|HO]); [..|destruct HO]; cbn [relation_of]; apply HB; rewrite <- ?L, <- ?E, <- ?G; lia.
Qed.
Print Assumptions C111_comparison_partial.

(** A strcmp C allows: the difference of the first bytes that differ, the end of a string counting as 0. *)
Fixpoint byte_difference (s t : list Z) : Z :=
  match s, t with
  | [], [] => 0
  | [], y :: _ => Z.min (-1) (0 - y)
  | x :: _, [] => Z.max 1 (x - 0)
  | x :: s', y :: t' => if x =? y then byte_difference s' t' else x - y
  end.
Lemma byte_difference_sign s : forall t, Z.sgn (byte_difference s t) = strcmp s t.
Proof.
  induction s as [|x s IH]; intros [|y t]; cbn [byte_difference strcmp]; auto.
  - apply Z.sgn_neg. lia.
  - apply Z.sgn_pos. lia.
  - destruct (x =? y) eqn:E; [replace (x <? y) with false by lia; replace (x >? y) with false by lia; apply IH|].
    destruct (x <? y) eqn:E1; [apply Z.sgn_neg; lia|]. replace (x >? y) with true by lia. apply Z.sgn_pos. lia.
Qed.
Definition lib_difference (p : f32 -> f32 -> f32) : libm := mkLibm p byte_difference byte_difference_sign.
Lemma difference_at p a b x y : x <> y -> byte_difference (p ++ x :: a) (p ++ y :: b) = x - y.
Proof. intro H. induction p as [|c p IH]; cbn [app byte_difference]; [replace (x =? y) with false by lia; reflexivity|]. rewrite Z.eqb_refl. exact IH. Qed.
(** With it every comparison of two strings whose first different bytes are x + 2 and x is true: they are at once equal, different,
    smaller and larger. *)
Theorem C111_comparison_refuted :
  forall X flist powf size code (v : vm X) o i j p x a b rest,
    In o comparisons -> can_run code size v o -> stack v = OStr j (p ++ x :: b) :: OStr i (p ++ (x + 2) :: a) :: rest ->
    vm_step flist (lib_difference powf) code size v = Ok (next v 1 (OInt 1 :: rest)).
Proof.
  intros X flist powf size code v o i j p x a b rest HO HC HS.
  rewrite (compare_step X flist (lib_difference powf) size code v o _ _ rest 2 HO HC HS); [reflexivity|].
  cbn [obj_cmp_by c_strcmp lib_difference]. rewrite difference_at by lia. f_equal. lia.
Qed.
Print Assumptions C111_comparison_refuted.

(** math.min and math.max of strings.  Missing: the next theorem. *)
Theorem C111_min_max_partial :
  forall X (lib : libm) (v : vm X) i j s t ra st rest L, called v [OStr i s; OStr j t] ra st rest L ->
    (c_strcmp lib s t <= 1 -> exists r v' u k, math_min (c_strcmp lib) v = Ok v' /\ gives v ra st rest L r v' /\ (r = OStr i s \/ r = OStr j t) /\ r = OStr k u /\ ~ lex_lt s u /\ ~ lex_lt t u) /\
    (exists r v' u k, math_max (c_strcmp lib) v = Ok v' /\ gives v ra st rest L r v' /\ (r = OStr i s \/ r = OStr j t) /\ r = OStr k u /\ ~ lex_lt u s /\ ~ lex_lt u t).
Proof.
  intros X lib v i j s t ra st rest L HC. destruct (lib_lex lib s t) as (L1 & E & G). destruct (lib_lex lib s s) as (L2 & E2 & G2). destruct (lib_lex lib t t) as (L3 & E3 & G3).
  assert (R1 : ~ lex_lt s s) by (rewrite <- L2; pose proof (proj2 E2 eq_refl); lia). assert (R2 : ~ lex_lt t t) by (rewrite <- L3; pose proof (proj2 E3 eq_refl); lia).
  split.
  - intro H1. destruct (pick_gives (c_strcmp lib) (fun c => negb (c =? 1)) v (OStr i s) (OStr j t) _ ra st rest L HC eq_refl) as (v' & EV & GV).
    destruct (c_strcmp lib s t =? 1) eqn:EC; cbn [negb] in GV.
    + exists (OStr j t), v', t, j. do 4 (split; [auto; fail|]). rewrite <- L1. split; [lia|auto].
    + exists (OStr i s), v', s, i. do 4 (split; [auto; fail|]). rewrite <- G. split; [auto|lia].
  - destruct (pick_gives (c_strcmp lib) (fun c => 0 <=? c) v (OStr i s) (OStr j t) _ ra st rest L HC eq_refl) as (v' & EV & GV).
    destruct (0 <=? c_strcmp lib s t) eqn:EC; cbn [negb] in GV.
    + exists (OStr i s), v', s, i. do 4 (split; [auto; fail|]). rewrite <- L1. split; [auto|lia].
    + exists (OStr j t), v', t, j. do 4 (split; [auto; fail|]). rewrite <- G. split; [lia|auto].
Qed.
Print Assumptions C111_min_max_partial.
(** math.min gives the larger string when the bytes differ by more than 1. *)
Theorem C111_min_refuted :
  forall X (v : vm X) i j p x y a b ra st rest L, called v [OStr i (p ++ x :: a); OStr j (p ++ y :: b)] ra st rest L -> x > y + 1 ->
    lex_lt (p ++ y :: b) (p ++ x :: a) /\ exists v', math_min byte_difference v = Ok v' /\ gives v ra st rest L (OStr i (p ++ x :: a)) v'.
Proof.
  intros X v i j p x y a b ra st rest L HC HX. split.
  - clear HC. induction p as [|c p IH]; cbn [app lex_lt]; [lia|]. right. auto.
  - pose proof (difference_at p a b x y ltac:(lia)) as HD.
    destruct (pick_gives byte_difference (fun c => negb (c =? 1)) v (OStr i (p ++ x :: a)) (OStr j (p ++ y :: b)) (x - y) ra st rest L HC) as (v' & EV & GV); [cbn [obj_cmp_by]; rewrite HD; reflexivity|].
    exists v'. split; auto. replace (x - y =? 1) with false in GV by lia. exact GV.
Qed.
Print Assumptions C111_min_refuted.

(** "c" and "a". *)
Example C111_case :
  let v := push (push vm0 (OStr 1 (bs "c"))) (OStr 0 (bs "a")) in
  can_run (mem_of [22; 0]) 2 v I_EQ /\ stack v = OStr 0 ([] ++ 97 :: []) :: OStr 1 ([] ++ (97 + 2) :: []) :: [] /\
  match vm_step [] (lib_difference fadd) (mem_of [22; 0]) 2 v with Ok w => stack w = [OInt 1] | _ => False end /\
  match vm_step [] (lib_with fadd) (mem_of [22; 0]) 2 v with Ok w => stack w = [OInt 0] | _ => False end /\
  c_strcmp (lib_with fadd) (bs "c") (bs "a") <> 2 /\ c_strcmp (lib_difference fadd) (bs "c") (bs "a") = 2 /\
  called (lib_vm [OStr 1 (bs "pq"); OStr 0 (bs "pa")]) [OStr 1 (bs "pq"); OStr 0 (bs "pa")] 30 [OInt 99] [[]] [mkLs [] false] /\
  given (math_min byte_difference (lib_vm [OStr 1 (bs "pq"); OStr 0 (bs "pa")])) = Some (OStr 1 (bs "pq")) /\
  given (math_min byte_difference (lib_vm [OStr 0 (bs "pa"); OStr 1 (bs "pq")])) = Some (OStr 0 (bs "pa")).
Proof.
  split; [unfold can_run, about_to; cbn; repeat split; lia|]. split; [reflexivity|]. split; [vm_compute; reflexivity|]. split; [vm_compute; reflexivity|].
  split; [vm_compute; discriminate|]. split; [reflexivity|]. split; [apply lib_called|]. split; vm_compute; reflexivity.
Qed.
