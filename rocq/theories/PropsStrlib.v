(** Theorems about the string library: C47, C69-C72. *)
From Coq Require Import String.
From Verif Require Import Base ListLemmas Float Dict PDict PDictKeys Strman StrmanSpec StrmanProofs Obj Instr Vm VmSpec Text TextProofs Strlib CFunSpec CFunProofs.

Ltac Zify.zify_post_hook ::= idtac.

Lemma sign32_small z : 0 <= z < 2 ^ 31 -> sign32 z = z.
Proof. intro H. unfold sign32, wrap32. rewrite Z.mod_small by (split; [lia|]; eapply Z.lt_trans; [apply H|reflexivity]). replace (z <? 2 ^ 31) with true by lia. reflexivity. Qed.
Lemma nth_firstn_lt {A} (l : list A) d : forall k i, (i < k)%nat -> nth i (firstn k l) d = nth i l d.
Proof. induction l as [|x l IH]; intros [|k] i H; try lia; destruct i; cbn; auto. apply IH. lia. Qed.
Lemma nth_skipn {A} (l : list A) d : forall k i, nth i (skipn k l) d = nth (k + i) l d.
Proof. induction l as [|x l IH]; intros [|k] i; cbn; auto. destruct i; auto. Qed.

Section Steps.
Context {X : Type}.
Implicit Types v : vm X.
(** Returning what is on top of the stack. *)
Lemma gives_ret1 v w r t args ra s rest L : called v args ra s rest L ->
  v_stacks w = (r :: t) :: (OInt ra :: s) :: rest -> v_lsymts w = v_lsymts v -> v_state w = S_READY -> v_gsyms w = v_gsyms v -> v_heap w = v_heap v ->
  v_swstk w = v_swstk v -> v_ext w = v_ext v -> (forall i u, 0 <= i < 65536 -> sm_get (v_str v) i = Some u -> sm_get (v_str w) i = Some u) ->
  exists v', vm_ret1 w = Ok v' /\ gives v ra s rest L r v' /\ v_str v' = v_str w.
Proof.
  intros [HS [self HL] HR] E1 E2 E3 E4 E5 E6 E7 E8. rewrite HL in E2. rewrite (ret1_ok w r t ra s rest _ L E1 E2).
  eexists. split; [reflexivity|]. split; [|reflexivity]. constructor; cbn; auto.
Qed.
(** Returning a new string. *)
Lemma gives_string v w t u args ra s rest L : called v args ra s rest L -> good_strings (v_str v) ->
  v_stacks w = t :: (OInt ra :: s) :: rest -> v_lsymts w = v_lsymts v -> v_state w = S_READY -> v_gsyms w = v_gsyms v -> v_heap w = v_heap v ->
  v_swstk w = v_swstk v -> v_ext w = v_ext v -> v_str w = v_str v ->
  exists v' r, (v4 <- push_new_string w u ;; vm_ret1 v4) = Ok v' /\ gives v ra s rest L r v' /\ a_string_of v' r u.
Proof.
  intros HC G E1 E2 E3 E4 E5 E6 E7 E8. rewrite <- E8 in G. destruct (push_new_ok w u G) as (sm & id & E & Hi & HG & HK & _). rewrite E. cbn [bind].
  destruct (gives_ret1 v (push (set_str w sm) (OStr id u)) (OStr id u) t args ra s rest L HC) as (v' & EV & HV & HSt); auto.
  - cbn. unfold stack. cbn. rewrite E1. reflexivity.
  - cbn. rewrite <- E8. auto.
  - exists v', (OStr id u). split; auto. split; auto. exists id. rewrite HSt. auto.
Qed.
Lemma called_push v args ra s rest L t : called v args ra s rest L -> v_stacks (set_stack v t) = t :: (OInt ra :: s) :: rest.
Proof. intros [HS _ _]. cbn. rewrite HS. reflexivity. Qed.
End Steps.

Ltac call_start HC :=
  let self := fresh "self" in let HL := fresh "HL" in let HS := fresh "HS" in let HR := fresh "HR" in
  destruct HC as [HS [self HL] HR].

(** ** C47: string.sub *)
(** [u] is the part of [t] from position [a] to position [b - 1]. *)
Definition is_part (u t : str) (a b : Z) : Prop :=
  zlen u = b - a /\ forall i, 0 <= i < b - a -> nth (Z.to_nat i) u 0 = nth (Z.to_nat (a + i)) t 0.

Lemma part_ok t n m : 0 <= n -> n <= m <= zlen t -> is_part (firstn (Z.to_nat (m - n)) (skipn (Z.to_nat n) t)) t n m.
Proof.
  intros H0 H. unfold is_part, zlen in *. split.
  - rewrite firstn_length, skipn_length. lia.
  - intros i Hi. rewrite nth_firstn_lt by lia. rewrite nth_skipn. f_equal. lia.
Qed.

Theorem C47_sub_partial :
  forall X (v : vm X) args ra s rest L sid t n m,
    called v args ra s rest L -> good_strings (v_str v) ->
    zlen t < 2 ^ 31 -> 0 <= n ->
    (args = [OStr sid t; OInt n] /\ m = zlen t \/ args = [OStr sid t; OInt n; OInt m]) ->
    exists v' r, string_sub v = Ok v' /\ gives v ra s rest L r v' /\
      (n < zlen t /\ n <= m -> exists u, a_string_of v' r u /\ is_part u t n (Z.min m (zlen t))) /\
      (zlen t <= n \/ m < n -> r = ONil).
Proof.
  intros X v args ra s rest L sid t n m HC G HT Hn HA. pose proof HC as HC0. call_start HC.
  assert (H0 : 0 <= zlen t) by (unfold zlen; lia).
  assert (EL : sign32 (zlen t) = zlen t) by (apply sign32_small; lia).
  unfold string_sub. rewrite (lnum_ok _ _ _ HL). cbn [bind].
  assert (HK : zlen (self :: args) - 1 = 2 /\ m = zlen t /\ args = [OStr sid t; OInt n] \/ zlen (self :: args) - 1 = 3 /\ args = [OStr sid t; OInt n; OInt m]).
  { destruct HA as [[-> ->]| ->]; [left|right]; auto. }
  assert (H1 : nth_error (self :: args) 1 = Some (OStr sid t)) by (destruct HA as [[-> ->]| ->]; reflexivity).
  assert (H2 : nth_error (self :: args) 2 = Some (OInt n)) by (destruct HA as [[-> ->]| ->]; reflexivity).
  replace (negb (zlen (self :: args) - 1 =? 2) && negb (zlen (self :: args) - 1 =? 3)) with false by lia.
  rewrite (lload_ok v _ L 1 _ HL ltac:(lia) H1). cbn [bind]. unfold type_assert. rewrite ?top_push. cbn [bind]. change (otype (OStr sid t) =? T_STRING) with true. cbv beta iota.
  unfold top_str. rewrite ?top_push. cbn [bind]. rewrite (lload_ok (push v (OStr sid t)) (self :: args) L 2 _ HL ltac:(lia) H2). cbn [bind]. rewrite ?top_push. cbn [bind].
  change (otype (OInt n) =? T_INT) with true. cbv beta iota. unfold top_int. rewrite ?top_push. cbn [bind]. rewrite EL.
  destruct (zlen t <=? n) eqn:Eb.
  { destruct (gives_ret1 v (push (push (push v (OStr sid t)) (OInt n)) ONil) ONil [OInt n; OStr sid t] args ra s rest L HC0) as (v' & EV & HV & _); auto.
    { cbn. unfold stack. cbn. rewrite HS. reflexivity. }
    exists v', ONil. split; auto. split; auto. split; auto. lia. }
  assert (HF : forall w st j, j = Z.min m (zlen t) -> n <= j -> v_stacks w = st :: (OInt ra :: s) :: rest -> v_lsymts w = v_lsymts v -> v_state w = S_READY -> v_gsyms w = v_gsyms v -> v_heap w = v_heap v ->
    v_swstk w = v_swstk v -> v_ext w = v_ext v -> v_str w = v_str v ->
    exists v' r, (s2 <- sub_chars t n j ;; v4 <- push_new_string w s2 ;; vm_ret1 v4) = Ok v' /\ gives v ra s rest L r v' /\
      (n < zlen t /\ n <= m -> exists u, a_string_of v' r u /\ is_part u t n (Z.min m (zlen t))) /\ (zlen t <= n \/ m < n -> r = ONil)).
  { intros w st j Hj Hnj. intros. unfold sub_chars. replace (n <? 0) with false by lia. cbn [bind].
    destruct (gives_string v w st (firstn (Z.to_nat (j - n)) (skipn (Z.to_nat n) t)) args ra s rest L HC0 G) as (v' & r & EV & HV & HU); auto.
    exists v', r. split; auto. split; auto. split; [|lia]. intros _. eexists. split; [exact HU|]. rewrite <- Hj. apply part_ok; lia. }
  destruct HK as [(EK & EM & EA)|(EK & EA)]; rewrite EK; cbn [Z.eqb Pos.eqb].
  - destruct (HF (push (push v (OStr sid t)) (OInt n)) [OInt n; OStr sid t] (zlen t)) as (v' & r & HH); auto; try lia.
    { cbn. unfold stack. cbn. rewrite HS. reflexivity. } exists v', r. exact HH.
  - rewrite (lload_ok (push (push v (OStr sid t)) (OInt n)) (self :: args) L 3 (OInt m) HL ltac:(lia) ltac:(subst; reflexivity)). cbn [bind]. rewrite ?top_push. cbn [bind].
    change (otype (OInt m) =? T_INT) with true. cbv beta iota. rewrite ?top_push. cbn [bind].
    destruct (m <? n) eqn:Em.
    + destruct (gives_ret1 v (push (push (push (push v (OStr sid t)) (OInt n)) (OInt m)) ONil) ONil [OInt m; OInt n; OStr sid t] args ra s rest L HC0) as (v' & EV & HV & _); auto.
      { cbn. unfold stack. cbn. rewrite HS. reflexivity. }
      exists v', ONil. split; auto. split; auto. split; auto. lia.
    + destruct (HF (push (push (push v (OStr sid t)) (OInt n)) (OInt m)) [OInt m; OInt n; OStr sid t] (if zlen t <=? m then zlen t else m)) as (v' & r & HH); auto.
      { destruct (zlen t <=? m) eqn:E; lia. } { destruct (zlen t <=? m) eqn:E; lia. }
      { cbn. unfold stack. cbn. rewrite HS. reflexivity. } exists v', r. exact HH.
Qed.
Print Assumptions C47_sub_partial.

(** A negative start reads memory before the string, whatever the string is. *)
Theorem C47_negative_start_refuted :
  forall X (v : vm X) ra s rest L sid t n m,
    called v [OStr sid t; OInt n; OInt m] ra s rest L -> zlen t < 2 ^ 31 -> n < 0 -> n <= m -> string_sub v = UB.
Proof.
  intros X v ra s rest L sid t n m HC HT Hn Hm. call_start HC. unfold string_sub. rewrite (lnum_ok _ _ _ HL).
  assert (H0 : 0 <= zlen t) by (unfold zlen; lia).
  assert (EL : sign32 (zlen t) = zlen t) by (apply sign32_small; lia).
  cbn [bind]. change (zlen [self; OStr sid t; OInt n; OInt m] - 1) with 3. cbn [Z.eqb Pos.eqb negb andb].
  rewrite (lload_ok v _ L 1 (OStr sid t) HL ltac:(lia) eq_refl). cbn [bind]. unfold type_assert. rewrite ?top_push. cbn [bind]. change (otype (OStr sid t) =? T_STRING) with true. cbv beta iota.
  unfold top_str. rewrite ?top_push. cbn [bind]. rewrite (lload_ok (push v (OStr sid t)) _ L 2 (OInt n) HL ltac:(lia) eq_refl). cbn [bind]. rewrite ?top_push. cbn [bind].
  change (otype (OInt n) =? T_INT) with true. cbv beta iota. unfold top_int. rewrite ?top_push. cbn [bind]. rewrite EL. replace (zlen t <=? n) with false by lia.
  rewrite (lload_ok (push (push v (OStr sid t)) (OInt n)) _ L 3 (OInt m) HL ltac:(lia) eq_refl). cbn [bind]. rewrite ?top_push. cbn [bind].
  change (otype (OInt m) =? T_INT) with true. cbv beta iota. rewrite ?top_push. cbn [bind]. replace (m <? n) with false by lia. unfold sub_chars. replace (n <? 0) with true by lia. reflexivity.
Qed.
Print Assumptions C47_negative_start_refuted.

Lemma sign32_id z : int32_range z -> sign32 z = z.
Proof.
  intros [H1 H2]. unfold sign32, wrap32. change (2 ^ 31) with 2147483648 in *. change (2 ^ 32) with 4294967296. destruct (0 <=? z) eqn:E.
  - rewrite Z.mod_small by lia. replace (z <? 2147483648) with true by lia. reflexivity.
  - replace (z mod 4294967296) with (z + 4294967296). 2: { rewrite <- (Z.mod_add z 1 4294967296) by lia. rewrite Z.mod_small by lia. lia. }
    replace (z + 4294967296 <? 2147483648) with false by lia. lia.
Qed.

(** Concrete states: a VM whose script called a C function with strings "buzz", "y" and integers. *)
Definition lib_sm : strman :=
  match sm_run sm_new [SmReg (bs "buzz") false; SmReg (bs "y") false; SmReg (bs "12") false; SmReg (bs "x") false] with Ok (sm, _) => sm | _ => sm_new end.
Definition lib_vm (args : list obj) : vm unit :=
  mkVm 7 7 [[]; [OInt 30; OInt 99]; []] [mkLs (map Some (ONil :: args)) false; mkLs [] false] (pnew 20) [] lib_sm [] S_READY E_NONE tt.
Lemma lib_called args : called (lib_vm args) args 30 [OInt 99] [[]] [mkLs [] false].
Proof. constructor; try reflexivity. exists ONil. reflexivity. Qed.
Lemma lib_good : good_strings lib_sm.
Proof.
  split.
  - exists [SmReg (bs "buzz") false; SmReg (bs "y") false; SmReg (bs "12") false; SmReg (bs "x") false]. eexists. split; [vm_compute; reflexivity|].
    vm_compute. repeat split.
  - vm_compute. reflexivity.
Qed.
Definition result_of (r : res (vm unit)) : option obj :=
  match r with Ok v => match v_state v with S_READY => hd_error (stack v) | _ => None end | _ => None end.
Example C47_nontrivial :
  called (lib_vm [OStr 0 (bs "buzz"); OInt 1; OInt 3]) [OStr 0 (bs "buzz"); OInt 1; OInt 3] 30 [OInt 99] [[]] [mkLs [] false] /\
  good_strings (v_str (lib_vm [OStr 0 (bs "buzz"); OInt 1; OInt 3])) /\
  result_of (string_sub (lib_vm [OStr 0 (bs "buzz"); OInt 1; OInt 3])) = Some (OStr 4 (bs "uz")) /\
  result_of (string_sub (lib_vm [OStr 0 (bs "buzz"); OInt 1; OInt 100])) = Some (OStr 4 (bs "uzz")) /\
  result_of (string_sub (lib_vm [OStr 0 (bs "buzz"); OInt 4])) = Some ONil /\
  called (lib_vm [OStr 0 (bs "buzz"); OInt (-1); OInt 3]) [OStr 0 (bs "buzz"); OInt (-1); OInt 3] 30 [OInt 99] [[]] [mkLs [] false].
Proof.
  split; [apply lib_called|]. split; [apply lib_good|]. split; [vm_compute; reflexivity|]. split; [vm_compute; reflexivity|].
  split; [vm_compute; reflexivity|apply lib_called].
Qed.

(** ** C69: string.concat and string.length *)
Definition string_objs (l : list (Z * str)) : list obj := map (fun e => OStr (fst e) (snd e)) l.
Definition texts (l : list (Z * str)) : str := concat (map snd l).

Section Concat.
Context {X : Type}.
Implicit Types v : vm X.
Lemma load_all L self k : forall l2 l1 v st rs,
  v_lsymts v = mkLs (map Some (self :: string_objs (l1 ++ l2))) false :: L -> v_stacks v = st :: rs ->
  zlen (texts (l1 ++ l2)) < 2 ^ 32 ->
  concat_load v (length l2) (1 + zlen l1) (zlen (texts l1)) k = k (set_stack v (rev (string_objs l2) ++ st)) (zlen (texts (l1 ++ l2))).
Proof.
  induction l2 as [|[i t] l2 IH]; intros l1 v st rs HL HS HZ; cbn [concat_load length].
  - rewrite app_nil_r. f_equal. destruct v. cbn in *. unfold set_stack, set_stacks. cbn. subst. reflexivity.
  - rewrite (lload_ok v _ L _ (OStr i t) HL).
    2: { unfold zlen. lia. }
    2: { unfold zlen. replace (Z.to_nat (1 + Z.of_nat (length l1))) with (S (length l1)) by lia. cbn [nth_error]. unfold string_objs. rewrite map_app, nth_error_app2; rewrite map_length; auto. rewrite Nat.sub_diag. reflexivity. }
    cbn [bind]. unfold type_assert. rewrite ?top_push. cbn [bind]. change (otype (OStr i t) =? T_STRING) with true. cbv beta iota. unfold top_str. rewrite ?top_push. cbn [bind].
    specialize (IH (l1 ++ [(i, t)]) (push v (OStr i t)) (OStr i t :: st) rs).
    replace (l1 ++ (i, t) :: l2) with ((l1 ++ [(i, t)]) ++ l2) in * by (rewrite <- app_assoc; reflexivity).
    replace (wrap32 (zlen (texts l1) + zlen t)) with (zlen (texts (l1 ++ [(i, t)]))).
    2: { unfold texts in *. rewrite !map_app, !concat_app, !zlen_app in *. cbn [map concat snd] in *. rewrite app_nil_r in *. unfold wrap32. rewrite Z.mod_small; auto.
         pose proof (zlen_nonneg (concat (map snd l1))). pose proof (zlen_nonneg t). pose proof (zlen_nonneg (concat (map snd l2))). lia. }
    replace (1 + zlen l1 + 1) with (1 + zlen (l1 ++ [(i, t)])) by (rewrite zlen_app; change (zlen [(i, t)]) with 1; lia).
    rewrite IH; auto.
    + f_equal. unfold string_objs. cbn [map rev fst snd]. rewrite <- app_assoc. reflexivity.
    + cbn. unfold stack. rewrite HS. reflexivity.
Qed.
Lemma copy_all l : forall v st rs, v_stacks v = (rev (string_objs l) ++ st) :: rs -> concat_copy v (length l) = Ok (texts l).
Proof.
  induction l as [|[i t] l IH]; intros v st rs H; cbn [concat_copy length]; auto.
  unfold stack_at, stack. rewrite H. cbn [hd]. replace (1 <=? Z.of_nat (S (length l))) with true by lia.
  replace (Z.to_nat (Z.of_nat (S (length l)) - 1)) with (length l) by lia.
  unfold string_objs in *. cbn [map rev fst snd] in *. rewrite <- app_assoc in *. cbn [app] in *.
  rewrite nth_error_app2; rewrite rev_length, map_length; auto. rewrite Nat.sub_diag. cbn [nth_error bind].
  rewrite (IH v (OStr i t :: st) rs H). reflexivity.
Qed.
End Concat.

Theorem C69_concat :
  forall X (v : vm X) ra s rest L l,
    called v (string_objs l) ra s rest L -> good_strings (v_str v) -> 2 <= zlen l -> zlen (texts l) < 2 ^ 32 ->
    exists v' r, string_concat v = Ok v' /\ gives v ra s rest L r v' /\ a_string_of v' r (texts l).
Proof.
  intros X v ra s rest L l HC G HL2 HZ. pose proof HC as HC0. call_start HC. unfold string_concat. rewrite (lnum_ok _ _ _ HL). cbn [bind].
  assert (EN : zlen (self :: string_objs l) - 1 = zlen l) by (rewrite zlen_cons; unfold string_objs; rewrite zlen_map; lia). rewrite EN.
  replace (zlen l <? 2) with false by lia. assert (EN' : Z.to_nat (zlen l) = length l) by (unfold zlen; lia). rewrite EN'.
  pose proof (load_all L self (fun v1 len => s0 <- concat_copy v1 (length l) ;; if zlen s0 =? len then v2 <- push_new_string v1 s0 ;; vm_ret1 v2 else UB) l [] v [] _ HL HS HZ) as HLd.
  change (1 + zlen []) with 1 in HLd. change (zlen (texts [])) with 0 in HLd. rewrite HLd. cbn [app].
  rewrite (copy_all l _ [] ((OInt ra :: s) :: rest)) by (cbn; rewrite HS, app_nil_r; reflexivity). cbn [bind]. rewrite Z.eqb_refl.
  apply (gives_string v _ (rev (string_objs l) ++ []) (texts l) _ ra s rest L HC0 G); auto. cbn. rewrite HS. reflexivity.
Qed.
Print Assumptions C69_concat.

Theorem C69_length :
  forall X (v : vm X) ra s rest L sid t,
    called v [OStr sid t] ra s rest L -> zlen t < 2 ^ 31 ->
    exists v', string_length v = Ok v' /\ gives v ra s rest L (OInt (zlen t)) v'.
Proof.
  intros X v ra s rest L sid t HC HT. pose proof HC as HC0. call_start HC. unfold string_length, lnum_assert. rewrite (lnum_ok _ _ _ HL). cbn [bind].
  change (zlen [self; OStr sid t] - 1 =? 1) with true. cbv beta iota. rewrite (lload_ok v _ L 1 (OStr sid t) HL ltac:(lia) eq_refl). cbn [bind].
  unfold type_assert. rewrite ?top_push. cbn [bind]. change (otype (OStr sid t) =? T_STRING) with true. cbv beta iota. unfold top_str. rewrite ?top_push. cbn [bind].
  rewrite sign32_small by (pose proof (zlen_nonneg t); lia).
  destruct (gives_ret1 v (push (push v (OStr sid t)) (OInt (zlen t))) (OInt (zlen t)) [OStr sid t] [OStr sid t] ra s rest L HC0) as (v' & E & HV & _); eauto.
  cbn. unfold stack. cbn. rewrite HS. reflexivity.
Qed.
Print Assumptions C69_length.
Example C69_nontrivial :
  called (lib_vm (string_objs [(0, bs "buzz"); (1, bs "y"); (0, bs "buzz")])) (string_objs [(0, bs "buzz"); (1, bs "y"); (0, bs "buzz")]) 30 [OInt 99] [[]] [mkLs [] false] /\
  good_strings lib_sm /\
  result_of (string_concat (lib_vm (string_objs [(0, bs "buzz"); (1, bs "y"); (0, bs "buzz")]))) = Some (OStr 4 (bs "buzzybuzz")) /\
  result_of (string_length (lib_vm [OStr 0 (bs "buzz")])) = Some (OInt 4).
Proof. split; [apply lib_called|]. split; [apply lib_good|]. split; vm_compute; reflexivity. Qed.

(** ** C70: numbers to text and back *)
(** Decimal numerals, as everyone reads them. *)
Inductive numeral : str -> Z -> Prop :=
| num_digit d : 0 <= d <= 9 -> numeral [48 + d] d
| num_more s n d : numeral s n -> 0 <= d <= 9 -> numeral (s ++ [48 + d]) (10 * n + d).
(** [t] is the integer [i] in decimal. *)
Definition is_text_of (t : str) (i : Z) : Prop := numeral t i \/ exists ds, t = 45 :: ds /\ numeral ds (- i).

Lemma numeral_digits t n : numeral t n -> Forall (fun c => isdigit c = true) t /\ digits_value t = n /\ t <> [] /\ 0 <= n.
Proof.
  induction 1 as [d Hd|s n d _ (A & B & C & D) Hd].
  - split; [constructor; [cbv beta; unfold isdigit; apply andb_true_intro; split; apply Z.leb_le; lia|constructor]|]. split; [unfold digits_value; cbn [fold_left]; lia|]. split; [discriminate|lia].
  - split; [apply Forall_app; split; auto; constructor; [cbv beta; unfold isdigit; apply andb_true_intro; split; apply Z.leb_le; lia|constructor]|].
    split; [unfold digits_value in *; rewrite fold_left_app, B; cbn [fold_left]; lia|]. split; [|lia]. intro E. apply app_eq_nil in E as [_ E]. discriminate.
Qed.
Lemma digits_numeral t : t <> [] -> Forall (fun c => isdigit c = true) t -> numeral t (digits_value t).
Proof.
  induction t as [|c t IH] using rev_ind; intros HN HF; [congruence|]. apply Forall_app in HF as [HF HC]. inversion HC; subst. apply digit_range in H1.
  unfold digits_value in *. rewrite fold_left_app. cbn [fold_left]. destruct t as [|c' t].
  - cbn [app fold_left]. replace (10 * 0 + (c - 48)) with (c - 48) by lia. replace [c] with [48 + (c - 48)] by (f_equal; lia). constructor. lia.
  - replace [c] with [48 + (c - 48)] by (f_equal; lia). constructor; [apply IH; auto; discriminate|lia].
Qed.
Lemma text_parse t i : is_text_of t i -> exists neg a, parse_number t = Some (neg, a) /\ 0 <= a /\ i = (if neg then - a else a).
Proof.
  intros [H|(ds & -> & H)]; apply numeral_digits in H as (A & B & C & D).
  - exists false, i. rewrite parse_digits by auto. rewrite B. auto.
  - exists true, (- i). rewrite parse_neg by auto. rewrite B. split; auto. split; lia.
Qed.
Lemma print_text i : int32_range i -> is_text_of (print_d i) i.
Proof.
  intros [H1 H2]. unfold print_d, is_text_of. change (2 ^ 31) with 2147483648 in *. destruct (i <? 0) eqn:E.
  - right. destruct (print_u_spec (- i)) as (A & B & C). { split; [lia|]. change (2 ^ 64) with 18446744073709551616. lia. }
    exists (print_u (- i)). split; auto. pose proof (digits_numeral _ C A) as HN. rewrite B in HN. exact HN.
  - left. destruct (print_u_spec i) as (A & B & C). { split; [lia|]. change (2 ^ 64) with 18446744073709551616. lia. }
    pose proof (digits_numeral _ C A) as HN. rewrite B in HN. exact HN.
Qed.

(** What string.tostring returns for an integer, what string.toint returns for a decimal text. *)
Theorem C70_tostring :
  forall X fmt_f as_float (v : vm X) ra s rest L i,
    called v [OInt i] ra s rest L -> good_strings (v_str v) -> int32_range i ->
    exists v' r t, string_tostring fmt_f as_float v = Ok v' /\ gives v ra s rest L r v' /\ a_string_of v' r t /\ is_text_of t i.
Proof.
  intros X fmt_f as_float v ra s rest L i HC G HI. pose proof HC as HC0. call_start HC. unfold string_tostring, lnum_assert. rewrite (lnum_ok _ _ _ HL). cbn [bind].
  change (zlen [self; OInt i] - 1 =? 1) with true. cbv beta iota. rewrite (lload_ok v _ L 1 (OInt i) HL ltac:(lia) eq_refl). cbn [bind]. rewrite ?top_push. cbn [bind]. rewrite ?top_push. cbn [bind].
  destruct (gives_string v (push v (OInt i)) [OInt i] (print_d i) [OInt i] ra s rest L HC0 G) as (v' & r & EV & HV & HU); auto.
  { cbn. unfold stack. rewrite HS. reflexivity. }
  exists v', r, (print_d i). split; auto. split; auto. split; auto. apply print_text; auto.
Qed.
Print Assumptions C70_tostring.
Lemma toint_eq X (v : vm X) ra s rest L sid t : called v [OStr sid t] ra s rest L ->
  exists v', string_toint v = Ok v' /\ gives v ra s rest L
    (match parse_number t with
     | None => ONil
     | Some (neg, a) => if (if neg then 2 ^ 63 <? a else 2 ^ 63 <=? a) && (sign32 (strtol t) =? 0) then ONil else OInt (sign32 (strtol t))
     end) v'.
Proof.
  intro HC. pose proof HC as HC0. call_start HC. unfold string_toint, lnum_assert. rewrite (lnum_ok _ _ _ HL). cbn [bind].
  change (zlen [self; OStr sid t] - 1 =? 1) with true. cbv beta iota. rewrite (lload_ok v _ L 1 (OStr sid t) HL ltac:(lia) eq_refl). cbn [bind].
  unfold type_assert. rewrite ?top_push. cbn [bind]. change (otype (OStr sid t) =? T_STRING) with true. cbv beta iota. unfold top_str. rewrite ?top_push. cbn [bind].
  destruct (parse_number t) as [[neg a]|]; cbv zeta;
  match goal with |- exists v', vm_ret1 (push (push v ?o) ?r) = _ /\ _ =>
    destruct (gives_ret1 v (push (push v o) r) r [o] [o] ra s rest L HC0) as (v' & E & HV & _); eauto;
    cbn; unfold stack; cbn; rewrite HS; reflexivity end.
Qed.
Theorem C70_toint :
  forall X (v : vm X) ra s rest L sid t i,
    called v [OStr sid t] ra s rest L -> is_text_of t i -> int32_range i ->
    exists v', string_toint v = Ok v' /\ gives v ra s rest L (OInt i) v'.
Proof.
  intros X v ra s rest L sid t i HC HT HI. destruct (toint_eq _ _ _ _ _ _ _ _ HC) as (v' & E & HV). exists v'. split; auto.
  destruct (text_parse t i HT) as (neg & a & EP & Ha & Hi). rewrite EP in HV.
  assert (HB : a <= 2 ^ 31) by (unfold int32_range in HI; destruct neg; lia). change (2 ^ 31) with 2147483648 in *.
  replace (if neg then 2 ^ 63 <? a else 2 ^ 63 <=? a) with false in HV by (destruct neg; change (2 ^ 63) with 9223372036854775808; lia). cbn [andb] in HV.
  replace (sign32 (strtol t)) with i in HV; auto. symmetry. unfold strtol. rewrite EP. change (2 ^ 63) with 9223372036854775808.
  transitivity (sign32 i); [f_equal; destruct neg; lia|apply sign32_id; auto].
Qed.
Print Assumptions C70_toint.
(** Converting an integer to a string and back. *)
Corollary C70_round_trip :
  forall X fmt_f as_float (v w : vm X) ra s rest L ra' s' rest' L' i v' r,
    called v [OInt i] ra s rest L -> good_strings (v_str v) -> int32_range i ->
    string_tostring fmt_f as_float v = Ok v' -> gives v ra s rest L r v' ->
    called w [r] ra' s' rest' L' ->
    exists w', string_toint w = Ok w' /\ gives w ra' s' rest' L' (OInt i) w'.
Proof.
  intros X fmt_f as_float v w ra s rest L ra' s' rest' L' i v' r HC G HI E HV HW.
  destruct (C70_tostring X fmt_f as_float v ra s rest L i HC G HI) as (v1 & r1 & t & E1 & HV1 & (id & Hr & _ & _) & HT).
  rewrite E in E1. inversion E1; subst v1. destruct HV as [_ ES _ _ _ _ _ _ _]. destruct HV1 as [_ ES1 _ _ _ _ _ _ _]. rewrite ES in ES1. inversion ES1; subst.
  eapply C70_toint; eauto.
Qed.
Print Assumptions C70_round_trip.
(** A text without digits gives nil. *)
Theorem C70_not_a_number :
  forall X (v : vm X) ra s rest L sid c t,
    called v [OStr sid (c :: t)] ra s rest L -> ~ (9 <= c <= 13) -> c <> 32 -> c <> 43 -> c <> 45 -> ~ (48 <= c <= 57) ->
    exists v', string_toint v = Ok v' /\ gives v ra s rest L ONil v'.
Proof.
  intros X v ra s rest L sid c t HC H1 H2 H3 H4 H5. destruct (toint_eq _ _ _ _ _ _ _ _ HC) as (v' & E & HV). exists v'. split; auto.
  replace (parse_number (c :: t)) with (@None (bool * Z)) in HV; auto. unfold parse_number. cbn [drop_while].
  replace (isspace c) with false by (unfold isspace; lia). replace (c =? 45) with false by lia. replace (c =? 43) with false by lia. cbn [take_while].
  replace (isdigit c) with false by (unfold isdigit; lia). reflexivity.
Qed.
Print Assumptions C70_not_a_number.
Example C70_nontrivial :
  called (lib_vm [OInt (-12)]) [OInt (-12)] 30 [OInt 99] [[]] [mkLs [] false] /\ good_strings lib_sm /\ is_text_of (bs "12") 12 /\
  result_of (string_tostring (fun _ => []) (fun _ => S754_nan) (lib_vm [OInt (-12)])) = Some (OStr 4 (bs "-12")) /\
  result_of (string_toint (lib_vm [OStr 2 (bs "12")])) = Some (OInt 12) /\
  result_of (string_toint (lib_vm [OStr 2 (bs "x")])) = Some ONil.
Proof.
  split; [apply lib_called|]. split; [apply lib_good|]. split; [left; apply (num_more [49] 1 2); [apply (num_digit 1); lia|lia]|].
  split; [vm_compute; reflexivity|]. split; vm_compute; reflexivity.
Qed.

(** ** C71: string.tostring of something that is not a number *)
(** It never returns nil: it returns the text of the float found in the storage of the object,
    whatever that is. *)
Theorem C71_not_a_number_refuted :
  forall X fmt_f as_float (v : vm X) ra s rest L o,
    called v [o] ra s rest L -> good_strings (v_str v) -> number o = false ->
    exists v' r t, string_tostring fmt_f as_float v = Ok v' /\ gives v ra s rest L r v' /\ a_string_of v' r t /\ r <> ONil.
Proof.
  intros X fmt_f as_float v ra s rest L o HC G HN. pose proof HC as HC0. call_start HC. unfold string_tostring, lnum_assert. rewrite (lnum_ok _ _ _ HL). cbn [bind].
  change (zlen [self; o] - 1 =? 1) with true. cbv beta iota. rewrite (lload_ok v _ L 1 o HL ltac:(lia) eq_refl). cbn [bind]. rewrite ?top_push. cbn [bind].
  replace (match o with OInt _ | OFloat _ => push v o | _ => push (push v o) ONil end) with (push (push v o) ONil) by (destruct o; auto; discriminate).
  rewrite ?top_push. cbn [bind].
  match goal with |- context [push_new_string _ ?t] => set (txt := t) end.
  destruct (gives_string v (push (push v o) ONil) [ONil; o] txt [o] ra s rest L HC0 G) as (v' & r & EV & HV & HU); auto.
  { cbn. unfold stack. cbn. rewrite HS. reflexivity. }
  exists v', r, txt. split; auto. split; auto. split; auto. destruct HU as (id & -> & _). discriminate.
Qed.
Print Assumptions C71_not_a_number_refuted.
(** Numbers are converted. *)
Theorem C71_float :
  forall X fmt_f as_float (v : vm X) ra s rest L f,
    called v [OFloat f] ra s rest L -> good_strings (v_str v) ->
    exists v' r, string_tostring fmt_f as_float v = Ok v' /\ gives v ra s rest L r v' /\ a_string_of v' r (fmt_f f).
Proof.
  intros X fmt_f as_float v ra s rest L f HC G. pose proof HC as HC0. call_start HC. unfold string_tostring, lnum_assert. rewrite (lnum_ok _ _ _ HL). cbn [bind].
  change (zlen [self; OFloat f] - 1 =? 1) with true. cbv beta iota. rewrite (lload_ok v _ L 1 (OFloat f) HL ltac:(lia) eq_refl). cbn [bind]. rewrite ?top_push. cbn [bind]. rewrite ?top_push. cbn [bind].
  apply (gives_string v (push v (OFloat f)) [OFloat f] (fmt_f f) [OFloat f] ra s rest L HC0 G); auto.
  cbn. unfold stack. rewrite HS. reflexivity.
Qed.
Print Assumptions C71_float.
Example C71_nontrivial :
  called (lib_vm [ONil]) [ONil] 30 [OInt 99] [[]] [mkLs [] false] /\ good_strings lib_sm /\ number ONil = false /\
  result_of (string_tostring (fun _ => bs "0.000000") (fun _ => S754_zero false) (lib_vm [ONil])) = Some (OStr 4 (bs "0.000000")).
Proof. split; [apply lib_called|]. split; [apply lib_good|]. split; [reflexivity|vm_compute; reflexivity]. Qed.

(** ** C72: string.toint of a number that is no int *)
(** Such a number is not reported: another number is returned. *)
Theorem C72_out_of_range_refuted :
  forall X (v : vm X) ra s rest L sid t a,
    called v [OStr sid t] ra s rest L -> numeral t a -> 2 ^ 31 <= a -> a mod 2 ^ 32 <> 0 \/ 2 ^ 63 <= a ->
    exists v' i, string_toint v = Ok v' /\ gives v ra s rest L (OInt i) v' /\ i <> a /\ int32_range i.
Proof.
  intros X v ra s rest L sid t a HC HT Ha Hm. destruct (toint_eq _ _ _ _ _ _ _ _ HC) as (v' & E & HV).
  pose proof (numeral_digits t a HT) as (A & B & C & D). rewrite parse_digits, B in HV by auto.
  assert (ES : strtol t = Z.min (2 ^ 63 - 1) a) by (unfold strtol; rewrite parse_digits, B by auto; reflexivity).
  assert (HZ : (2 ^ 63 <=? a) && (sign32 (strtol t) =? 0) = false).
  { destruct (2 ^ 63 <=? a) eqn:E2; auto. cbn [andb]. rewrite ES, Z.min_l by lia. reflexivity. }
  rewrite HZ in HV. exists v', (sign32 (strtol t)). split; auto. split; auto.
  assert (HR : int32_range (sign32 (strtol t))).
  { unfold int32_range, sign32, wrap32. change (2 ^ 31) with 2147483648. change (2 ^ 32) with 4294967296. pose proof (Z.mod_pos_bound (strtol t) 4294967296 ltac:(lia)). destruct (_ <? _) eqn:E1; lia. }
  split; auto. destruct HR. lia.
Qed.
Print Assumptions C72_out_of_range_refuted.
Lemma text_2p31 : numeral (bs "2147483648") 2147483648.
Proof.
  pose proof (digits_numeral (bs "2147483648")) as H. replace (digits_value (bs "2147483648")) with 2147483648 in H by (vm_compute; reflexivity).
  apply H; [discriminate|]. repeat constructor.
Qed.
Example C72_nontrivial :
  called (lib_vm [OStr 2 (bs "2147483648")]) [OStr 2 (bs "2147483648")] 30 [OInt 99] [[]] [mkLs [] false] /\ numeral (bs "2147483648") 2147483648 /\
  result_of (string_toint (lib_vm [OStr 2 (bs "2147483648")])) = Some (OInt (-2147483648)) /\
  result_of (string_toint (lib_vm [OStr 2 (bs "9999999999999999999")])) = Some (OInt (-1)).
Proof. split; [apply lib_called|]. split; [apply text_2p31|]. split; vm_compute; reflexivity. Qed.

(** ** C73: wrong arguments; the functions of the string library end as C functions must *)
Section Wrong.
Variables (fmt_f : f32 -> str) (as_float : obj -> f32) (strtof : str -> option (f32 * bool)).
(** Number of parameters of each function (no upper bound for concat). *)
Definition string_functions X : list ((vm X -> res (vm X)) * (Z -> Prop)) :=
  [ (string_length, fun n => n = 1); (string_sub, fun n => 2 <= n <= 3); (string_concat, fun n => 2 <= n);
    (string_tostring fmt_f as_float, fun n => n = 1); (string_toint, fun n => n = 1); (string_tofloat strtof, fun n => n = 1) ].
End Wrong.
Theorem C73_wrong_number_of_arguments :
  forall X fmt_f as_float strtof f P (v : vm X) args ra s rest L,
    In (f, P) (string_functions fmt_f as_float strtof X) -> called v args ra s rest L -> ~ P (zlen args) ->
    exists v', f v = Ok v' /\ fails v' E_LNUM.
Proof.
  intros X fmt_f as_float strtof f P v args ra s rest L HF HC HP. call_start HC.
  assert (EN : lnum v = Ok (zlen args)) by (rewrite (lnum_ok _ _ _ HL), zlen_cons; f_equal; lia).
  assert (HE : f v = Ok (err v E_LNUM)). 2: { rewrite HE. eexists. split; [reflexivity|]. split; reflexivity. }
  cbn [In string_functions] in HF. decompose [or] HF; try contradiction;
    match goal with H : (_, _) = (f, P) |- _ => inversion H; subst; clear H end;
    unfold string_length, string_tostring, string_toint, string_tofloat, string_sub, string_concat, lnum_assert; rewrite EN; cbn [bind].
  - replace (zlen args =? 1) with false by lia. reflexivity.
  - replace (zlen args =? 2) with false by lia. replace (zlen args =? 3) with false by lia. reflexivity.
  - replace (zlen args <? 2) with true by lia. reflexivity.
  - replace (zlen args =? 1) with false by lia. reflexivity.
  - replace (zlen args =? 1) with false by lia. reflexivity.
  - replace (zlen args =? 1) with false by lia. reflexivity.
Qed.
Print Assumptions C73_wrong_number_of_arguments.
(** length, toint, tofloat, sub and concat want strings. *)
Theorem C73_wrong_type_of_argument :
  forall X fmt_f as_float strtof f P (v : vm X) o args ra s rest L,
    In (f, P) (string_functions fmt_f as_float strtof X) -> f <> string_tostring fmt_f as_float ->
    called v (o :: args) ra s rest L -> P (zlen (o :: args)) -> a_string o = false ->
    exists v', f v = Ok v' /\ fails v' E_TYPE.
Proof.
  intros X fmt_f as_float strtof f P v o args ra s rest L HF HN HC HP HO. call_start HC.
  assert (EN : lnum v = Ok (zlen (o :: args))) by (rewrite (lnum_ok _ _ _ HL), (zlen_cons self); f_equal; lia).
  pose proof (lload_ok v _ L 1 o HL ltac:(lia) eq_refl) as EL.
  assert (ET : forall k, type_assert (push v o) 1 T_STRING k = Ok (err (push v o) E_TYPE)).
  { intro k. unfold type_assert. rewrite top_push. cbn [bind]. destruct o; try discriminate; reflexivity. }
  assert (HE : f v = Ok (err (push v o) E_TYPE)). 2: { rewrite HE. eexists. split; [reflexivity|]. split; reflexivity. }
  cbn [In string_functions] in HF. decompose [or] HF; try contradiction;
    match goal with H : (_, _) = (f, P) |- _ => inversion H; subst; clear H end; try congruence;
    unfold string_length, string_toint, string_tofloat, string_sub, string_concat, lnum_assert; rewrite EN; cbn [bind].
  - rewrite HP. cbn [Z.eqb Pos.eqb]. rewrite EL. cbn [bind]. apply ET.
  - replace (negb (zlen (o :: args) =? 2) && negb (zlen (o :: args) =? 3)) with false by lia. rewrite EL. cbn [bind]. apply ET.
  - replace (zlen (o :: args) <? 2) with false by lia. replace (Z.to_nat (zlen (o :: args))) with (S (length args)) by (unfold zlen; cbn [length]; lia).
    cbn [concat_load]. rewrite EL. cbn [bind]. apply ET.
  - rewrite HP. cbn [Z.eqb Pos.eqb]. rewrite EL. cbn [bind]. apply ET.
  - rewrite HP. cbn [Z.eqb Pos.eqb]. rewrite EL. cbn [bind]. apply ET.
Qed.
Print Assumptions C73_wrong_type_of_argument.

(** The requirement C40 makes on C functions is met by the string library. *)
Theorem C73_frames :
  forall X fmt_f as_float strtof f P, In (f, P) (string_functions fmt_f as_float strtof X) -> c_function_ok f.
Proof.
  intros X fmt_f as_float strtof f P HF. cbn [In string_functions] in HF.
  decompose [or] HF; try contradiction; match goal with H : (_, _) = (f, P) |- _ => inversion H; subst; clear H HF end.
  - c_fun (@string_length X). unfold string_length. ends_tac.
  - c_fun (@string_sub X). unfold string_sub. ends_tac.
  - c_fun (@string_concat X). unfold string_concat. ends_tac.
    assert (HL2 : forall (k : vm X -> Z -> res (vm X)) n i len w, (forall w' l, within ra s rest L w' -> ends ra s rest L (k w' l)) -> within ra s rest L w -> ends ra s rest L (concat_load w n i len k)).
    { intros k n. induction n as [|n IH]; intros i len w Hk Hw; cbn [concat_load]; auto. ends_tac. apply IH; auto. ends_tac. }
    apply HL2; auto. intros w' l Hw'. ends_tac.
  - c_fun (@string_tostring X fmt_f as_float). unfold string_tostring. ends_tac.
  - c_fun (@string_toint X). unfold string_toint. ends_tac.
  - c_fun (@string_tofloat X strtof). unfold string_tofloat. ends_tac.
Qed.
Print Assumptions C73_frames.
Example C73_nontrivial :
  called (lib_vm [OInt 3; OInt 4]) [OInt 3; OInt 4] 30 [OInt 99] [[]] [mkLs [] false] /\
  In (@string_concat unit, fun n => 2 <= n) (string_functions (fun _ => []) (fun _ => S754_nan) (fun _ => None) unit) /\
  In (@string_length unit, fun n => n = 1) (string_functions (fun _ => []) (fun _ => S754_nan) (fun _ => None) unit).
Proof. split; [apply lib_called|]. cbn. auto. Qed.
