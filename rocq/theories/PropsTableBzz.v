(** The functions of table.bzz (C109-C110). *)
From Coq Require Import String Permutation Sorted.
From Verif Require Import Base ListLemmas Float Dict DictProofs PDict Strlib Parser Strman StrmanSpec StrmanProofs Obj ObjSpec ObjProofs Instr Vm VmSpec VmProofs Text Lex LexSpec Asm AsmSpec WireProofs CFunSpec CFunProofs Source CompileSpec GcSpec HostSpec NeighborsVmSpec NeighborsVmProofs PropsNeighborsAdd PropsHost Load LibrarySpec TableLib StdSpec StdProofs PropsLibrary Register PropsCompile PropsScript
  Front FrontProofs Meaning StringBzz BzzExec PropsStringBzz TableBzz.
Local Open Scope Z_scope.
Local Open Scope list_scope.

(** The file is what was read. *)
Example table_bzz_read : holds_script (fun _ => None) table_bzz_file [] table_bzz.
Proof. apply (script_of_ok _ _ 4000). vm_compute. reflexivity. Qed.
Example table_bzz_same : table_bzz_with (fun i => i) Ss_nil = table_bzz. Proof. reflexivity. Qed.

(** ** Lists *)
Lemma upd_mid {A} (p : list A) x s y : upd (p ++ x :: s) (length p) y = p ++ y :: s.
Proof. induction p as [|a p IH]; cbn; [reflexivity|f_equal; exact IH]. Qed.
Lemma nth_mid {A} (p : list A) x s : nth_error (p ++ x :: s) (length p) = Some x.
Proof. induction p; auto. Qed.
Lemma to_zlen {A} (p : list A) : Z.to_nat (zlen p) = length p. Proof. unfold zlen. lia. Qed.
Lemma zlen_cons {A} (x : A) l : zlen (x :: l) = zlen l + 1. Proof. unfold zlen. cbn [length]. lia. Qed.
Lemma zlen_pos {A} (l : list A) : 0 <= zlen l. Proof. unfold zlen. lia. Qed.
Lemma arr_int_list t l : zlen l < 2 ^ 31 -> arr t l <-> int_list t l.
Proof.
  intro HL. split; [intros [A _ B]; split; assumption|]. intros [A B]. split; auto.
  assert (E : zlen (nodup Z.eq_dec (map Z.of_nat (seq 0 (length l)))) = zlen l).
  { rewrite nodup_fixed_point; [unfold zlen; rewrite map_length, seq_length; reflexivity|]. apply FinFun.Injective_map_NoDup; [intros x y H; lia|apply seq_NoDup]. }
  rewrite <- E. apply count_entries; [exact A| |].
  - apply Forall_forall. intros z Hz. apply in_map_iff in Hz as (n & <- & Hn). apply in_seq in Hn. unfold int32_range, zlen in *. lia.
  - intros r Hr. rewrite B by auto. rewrite in_map_iff. split.
    + intros (x & Hx). destruct (0 <=? r) eqn:E0; [|discriminate]. inversion Hx as [H]. assert (nth_error l (Z.to_nat r) <> None) as HN by congruence. apply nth_error_Some in HN. exists (Z.to_nat r). split; [lia|]. apply in_seq. lia.
    + intros (n & <- & Hn). apply in_seq in Hn. replace (0 <=? Z.of_nat n) with true by lia. rewrite Nat2Z.id. destruct (nth_error l n) eqn:EN; [eauto|]. apply nth_error_None in EN. lia.
Qed.

Section Bzz.
Context {X : Type}.
Notation sst := (sst X).
Variable strtof : list Z -> option Z.
Variable powf : libm.
Variable sid : str -> Z.
Variable ref : Z -> Z.
Variable fns : list func.
Variable cfun : Z -> list obj -> sst -> out (obj * sst).
Variable g : Z -> Z.
Notation at_most := (at_most strtof powf sid ref fns cfun).
Notation exec_all := (exec_all (X := X) strtof powf sid ref).
Notation exec := (exec (X := X) strtof powf sid ref).
Notation iterate := (iterate (X := X) strtof powf sid ref).
Notation table_lib := (table_lib sid ref fns cfun g).
Notation returns := (returns sid ref fns cfun strtof powf).

Ltac ev := cbn [Source.exec_all Source.exec Source.exec_body Source.eval evals then_ obind fst snd app].
Ltac enter := change (bs "self") with [115; 101; 108; 102]; cbn [combine fst snd].

(** *** Tables *)
Lemma get_arr (st : sst) a tb L k : 0 <= a -> nth_error (s_heap st) (Z.to_nat a) = Some tb -> arr tb L -> int32_range k ->
  get_val st (OTab a) (OInt k) = Done (match (if 0 <=? k then nth_error L (Z.to_nat k) else None) with Some o => o | None => ONil end).
Proof. intros Ha Hb HA Hk. unfold get_val, table_at. cbn [is_key]. replace (0 <=? a) with true by lia. rewrite Hb. cbn [obind]. rewrite (ar_get _ _ HA) by auto. cbn [of_res obind]. reflexivity. Qed.
Lemma put_arr (st : sst) a tb L k x : 0 <= a -> nth_error (s_heap st) (Z.to_nat a) = Some tb -> arr tb L -> 0 <= k < zlen L -> k < 2 ^ 31 -> storable x ->
  exists tb', put_val st (OTab a) (OInt k) x = Done (with_table st a tb') /\ arr tb' (upd L (Z.to_nat k) x).
Proof.
  intros Ha Hb HA Hk Hk2 Hx. destruct (arr_set tb L k x HA Hk Hk2) as (tb' & E & HA'). exists tb'. split; [|exact HA']. unfold put_val, table_at. cbn [is_key]. replace (0 <=? a) with true by lia. rewrite Hb. cbn [obind].
  destruct x; try contradiction; unfold bind_self; rewrite E; reflexivity.
Qed.
Lemma with_table_twice (st : sst) a t u : with_table (with_table st a t) a u = with_table st a u.
Proof. unfold with_table, set_tabs. cbn. rewrite upd_upd. reflexivity. Qed.
Lemma with_table_at (st : sst) a t u : nth_error (s_heap st) (Z.to_nat a) = Some u -> nth_error (s_heap (with_table st a t)) (Z.to_nat a) = Some t.
Proof. intro H. cbn. rewrite upd_nth_error; [rewrite Nat.eqb_refl; reflexivity|]. apply nth_error_Some. congruence. Qed.
Lemma with_table_id (st : sst) a u : nth_error (s_heap st) (Z.to_nat a) = Some u -> with_table st a u = st.
Proof. intro H. unfold with_table, set_tabs. rewrite upd_id by exact H. destruct st; reflexivity. Qed.

(** *** swap *)
Lemma swap_call n o a i j tb L x y (st : sst) : fun_value ref fns o swap_fun -> 0 <= a -> nth_error (s_heap st) (Z.to_nat a) = Some tb -> arr tb L -> zlen L < 2 ^ 31 ->
  0 <= i -> 0 <= j -> nth_error L (Z.to_nat i) = Some x -> nth_error L (Z.to_nat j) = Some y -> storable x -> storable y ->
  exists tb', call (at_most (S n)) o [OTab a; OInt i; OInt j] st = Done (ONil, with_table st a tb') /\ arr tb' (upd (upd L (Z.to_nat i) y) (Z.to_nat j) x).
Proof.
  intros HF Ha Hb HA HL Hi Hj Hx Hy Sx Sy. destruct (call_fun strtof powf sid ref fns cfun n o _ [OTab a; OInt i; OInt j] st HF eq_refl) as (self & ->).
  assert (Li : (Z.to_nat i < length L)%nat) by (apply nth_error_Some; congruence). assert (Lj : (Z.to_nat j < length L)%nat) by (apply nth_error_Some; congruence). unfold zlen in HL.
  assert (Ri : int32_range i) by (unfold int32_range; lia). assert (Rj : int32_range j) by (unfold int32_range; lia).
  unfold swap_fun. enter. destruct (Z.eq_dec i j) as [<-|Hne].
  - exists tb. split.
    + erewrite seq_step by (ev; vars; rewrite neq_ints; ev; rewrite truthy_bool; replace (negb (i =? i)) with false by lia; reflexivity). ev. rewrite with_table_id by exact Hb. reflexivity.
    + rewrite upd_upd. assert (y = x) by congruence. subst y. rewrite upd_id by exact Hx. exact HA.
  - destruct (put_arr st a tb L i y Ha Hb HA ltac:(unfold zlen; lia) ltac:(lia) Sy) as (t1 & P1 & A1).
    destruct (put_arr (with_table st a t1) a t1 _ j x Ha (with_table_at st a t1 tb Hb) A1 ltac:(unfold zlen; rewrite upd_length; lia) ltac:(lia) Sx) as (t2 & P2 & A2).
    exists t2. split; [|exact A2]. erewrite seq_step.
    2: { ev. vars. rewrite neq_ints. ev. rewrite truthy_bool. replace (negb (i =? j)) with true by lia. ev. cbn [is_top app]. vars. rewrite (get_arr st a tb L i Ha Hb HA Ri). replace (0 <=? i) with true by lia. rewrite Hx. ev. vars.
      rewrite (get_arr st a tb L j Ha Hb HA Rj). replace (0 <=? j) with true by lia. rewrite Hy. ev. rewrite P1. ev. vars. rewrite P2. ev. rewrite with_table_twice. reflexivity. }
    ev. reflexivity.
Qed.

(** *** sort *)
Lemma during_refl a (st : sst) : during a st st. Proof. repeat split; auto. Qed.
Lemma during_table a (st0 st : sst) t : during a st0 st -> during a st0 (with_table st a t).
Proof.
  intros (A & B & C & D & E). split; [exact A|]. split; [exact B|]. split; [exact C|]. split; [cbn; rewrite upd_length; exact D|]. intros b Hb. cbn. rewrite <- (E b Hb). apply nth_error_upd_other. auto.
Qed.
Lemma during_glob a (st0 st : sst) x v : In x sort_names -> during a st0 st -> during a st0 (set_glob st x v).
Proof.
  intros Hx (A & B & C & D & E). split; [exact A|]. split; [exact B|]. split; [|split; [exact D|exact E]]. intros y Hy. cbn. rewrite same_no by congruence. apply C. exact Hy.
Qed.
Lemma lib_during a ta (st0 st : sst) : 0 <= a -> ta <> a -> during a st0 st -> table_lib ta st0 -> table_lib ta st.
Proof.
  intros Ha Hne (A & B & C & D & E) HL. pose proof (tl_at _ _ _ _ _ _ _ HL) as HT.
  assert (HM : forall n o, member sid st0 "table" n o -> member sid st "table" n o).
  { intros n o (p & G & H). rewrite HT in G. inversion G; subst p. exists ta. split; [rewrite C; [exact HT|vm_compute; intuition discriminate]|].
    unfold get_val, table_at in *. destruct (is_key _); [|exact H]. destruct (0 <=? ta) eqn:E0; [|exact H]. rewrite E by lia. exact H. }
  destruct HL as [L1 L2 (o3 & M3 & F3) (o4 & M4 & F4) (o5 & M5 & F5) L6 L7]. constructor; eauto; rewrite C by (vm_compute; intuition discriminate); assumption.
Qed.

Section Sort.
Variable st0 : sst.
Variables a ta : Z.
Variable cf : obj.
Variable P : obj -> Prop.
Variable le : obj -> obj -> bool.
Hypothesis Ha : 0 <= a.
Hypothesis Hta : ta <> a.
Hypothesis HLib : table_lib ta st0.
Hypothesis HC : forall x y st, during a st0 st -> P x -> P y -> exists v, truthy v = le x y /\ returns cf [x; y] st v st.
Hypothesis HS : forall x, P x -> storable x.
Hypothesis HT : forall x y, P x -> P y -> le x y = true \/ le y x = true.
Hypothesis HTr : forall x y z, P x -> P y -> P z -> le x y = true -> le y z = true -> le x z = true.

Definition part_while : expr * body :=
  Eval vm_compute in match snd (snd (partition_fun g)) with Ss_cons _ (Ss_cons _ (Ss_cons _ (Ss_cons (S_while c b) _))) => (c, b) | _ => (E_nil, Block Ss_nil) end.
Definition part_vars self l h i j : locals :=
  [([115; 101; 108; 102], self); ([116], OTab a); ([99; 109; 112], cf); ([108], OInt l); ([104], OInt h); ([105], OInt i); ([106], OInt j)].
Definition at_a (st : sst) (L : list obj) : Prop := exists tb, nth_error (s_heap st) (Z.to_nat a) = Some tb /\ arr tb L.
Lemma iterate_mono n m c b l st r : iterate (at_most n) c None b l st = Done r -> (n <= m)%nat -> iterate (at_most m) c None b l st = Done r.
Proof. intros H Hm. destruct (at_most_mono strtof powf sid ref fns cfun (S n) (S m) ltac:(lia)) as [_ HA]. destruct (HA c None b l st) as [E|E]; cbn [Source.at_most again] in E; congruence. Qed.
Lemma mid_swap (p : list obj) x q y s : upd (upd (p ++ x :: q ++ y :: s) (length p) y) (length p + S (length q)) x = p ++ y :: q ++ x :: s.
Proof.
  rewrite upd_mid. replace (length p + S (length q))%nat with (length (p ++ y :: q)) by (rewrite app_length; reflexivity).
  change (p ++ y :: q ++ y :: s) with (p ++ (y :: q) ++ y :: s). rewrite (app_assoc p). rewrite upd_mid. rewrite <- app_assoc. reflexivity.
Qed.
(** Swapping two elements, or an element with itself. *)
Lemma swap_at n o st p x q s : fun_value ref fns o swap_fun -> P x -> (match q with [] => True | y :: _ => P y end) -> at_a st (p ++ q ++ x :: s) -> zlen (p ++ q ++ x :: s) < 2 ^ 31 ->
  exists st', call (at_most (S n)) o [OTab a; OInt (zlen p); OInt (zlen p + zlen q)] st = Done (ONil, st') /\ (forall z, during a z st -> during a z st') /\ s_glob st' = s_glob st /\
    at_a st' (p ++ match q with [] => x :: s | y :: q => x :: q ++ y :: s end).
Proof.
  intros HF Hx Hq (tb & Hb & HA) HL. destruct q as [|y q].
  - cbn [app] in *. change (zlen []) with 0. rewrite Z.add_0_r. destruct (swap_call n o a (zlen p) (zlen p) tb _ x x st HF Ha Hb HA HL (zlen_pos p) (zlen_pos p)) as (t' & E & A'); try (rewrite to_zlen; apply nth_mid); auto.
    exists (with_table st a t'). split; [exact E|]. split; [intros z Hz; apply during_table; exact Hz|]. split; [reflexivity|]. exists t'. split; [eapply with_table_at; eauto|]. rewrite upd_upd, to_zlen, upd_mid in A'. exact A'.
  - cbn [app] in *. assert (E2 : Z.to_nat (zlen p + zlen (y :: q)) = (length p + S (length q))%nat) by (unfold zlen; cbn [length]; lia).
    destruct (swap_call n o a (zlen p) (zlen p + zlen (y :: q)) tb _ y x st HF Ha Hb HA HL (zlen_pos p)) as (t' & E & A'); auto.
    + unfold zlen; lia.
    + rewrite to_zlen. apply nth_mid.
    + rewrite E2. replace (length p + S (length q))%nat with (length (p ++ y :: q)) by (rewrite app_length; reflexivity). change (p ++ y :: q ++ x :: s) with (p ++ (y :: q) ++ x :: s). rewrite (app_assoc p). apply nth_mid.
    + exists (with_table st a t'). split; [exact E|]. split; [intros z Hz; apply during_table; exact Hz|]. split; [reflexivity|]. exists t'. split; [eapply with_table_at; eauto|]. rewrite E2, to_zlen, mid_swap in A'. exact A'.
Qed.
Lemma part_loop self A C pv h : P pv -> forall R B1 B2 st, during a st0 st -> s_glob st (bs "pivot") = pv -> Forall P B1 -> Forall P B2 -> Forall P R ->
  at_a st (A ++ B1 ++ B2 ++ R ++ pv :: C) -> zlen (A ++ B1 ++ B2 ++ R ++ pv :: C) < 2 ^ 31 -> h = zlen (A ++ B1 ++ B2 ++ R) -> Forall (fun x => le x pv = true) B1 -> Forall (fun x => le x pv = false) B2 ->
  exists n st' B1' B2', iterate (at_most n) (fst part_while) None (snd part_while) (part_vars self (zlen A) h (zlen (A ++ B1)) (zlen (A ++ B1 ++ B2))) st = Done (None, part_vars self (zlen A) h (zlen (A ++ B1')) h, st') /\
    during a st0 st' /\ s_glob st' = s_glob st /\ at_a st' (A ++ B1' ++ B2' ++ pv :: C) /\ Permutation (B1 ++ B2 ++ R) (B1' ++ B2') /\ Forall (fun x => le x pv = true) B1' /\ Forall (fun x => le x pv = false) B2'.
Proof.
  intros Hpv. induction R as [|x R IH]; intros B1 B2 st HD HG F1 F2 FR HA HL Hh G1 G2.
  - exists 0%nat, st, B1, B2. rewrite app_nil_r in *. split.
    + unfold iterate, part_while, part_vars. cbn [fst snd]. ev. vars. rewrite lt_ints. ev. rewrite truthy_bool. subst h. rewrite Z.ltb_irrefl. reflexivity.
    + split; [exact HD|]. split; [reflexivity|]. split; [exact HA|]. split; [apply Permutation_refl|]. auto.
  - inversion FR as [|? ? Px FR']; subst x0 l. destruct (HC x pv st HD Px Hpv) as (v & Hv & n1 & Hc). vm_compute (bs "pivot") in HG.
    set (i := zlen (A ++ B1)). set (j := zlen (A ++ B1 ++ B2)). assert (Hj : h = j + zlen R + 1) by (subst h j; rewrite !app_assoc, !zlen_app, zlen_cons; lia).
    assert (Hr : 0 <= i /\ i <= j /\ j < h /\ h < 2 ^ 31 - 1 + 1). { subst i j h. rewrite !zlen_app, ?zlen_cons in *. pose proof (zlen_pos A). pose proof (zlen_pos B1). pose proof (zlen_pos B2). pose proof (zlen_pos R). pose proof (zlen_pos C). lia. }
    assert (Hget : get_val st (OTab a) (OInt j) = Done x).
    { destruct HA as (tb & Hb & HA). rewrite (get_arr st a tb _ j Ha Hb HA) by (unfold int32_range; lia). replace (0 <=? j) with true by lia. unfold j. rewrite to_zlen. replace (A ++ B1 ++ B2 ++ (x :: R) ++ pv :: C) with ((A ++ B1 ++ B2) ++ x :: R ++ pv :: C) by (cbn [app]; rewrite <- !app_assoc; reflexivity). rewrite nth_mid. reflexivity. }
    destruct (le x pv) eqn:EL.
    + destruct (tl_swap _ _ _ _ _ _ _ (lib_during a ta st0 st Ha Hta HD HLib)) as (os & (p & GT & MT) & FS). vm_compute (bs "table") in GT. match type of MT with context [bs ?n] => let y := eval vm_compute in (bs n) in change (bs n) with y in MT end.
      set (B2' := match B2 with [] => [] | y :: q => q ++ [y] end).
      assert (HSw : forall m, exists st1, call (at_most (S m)) os [OTab a; OInt i; OInt j] st = Done (ONil, st1) /\ during a st0 st1 /\ s_glob st1 = s_glob st /\ at_a st1 (A ++ (B1 ++ [x]) ++ B2' ++ R ++ pv :: C)).
      { intro m. destruct (swap_at m os st (A ++ B1) x B2 (R ++ pv :: C)) as (st1 & E1 & D1 & G1' & A1); auto.
        - destruct B2; auto. inversion F2; auto.
        - rewrite <- !app_assoc. exact HA.
        - rewrite <- !app_assoc. exact HL.
        - replace (zlen (A ++ B1) + zlen B2) with j in E1 by (unfold j; rewrite app_assoc, (zlen_app (A ++ B1)); reflexivity). exists st1. split; [exact E1|]. split; [auto|]. split; [exact G1'|].
          replace (A ++ (B1 ++ [x]) ++ B2' ++ R ++ pv :: C) with ((A ++ B1) ++ match B2 with [] => x :: R ++ pv :: C | y :: q => x :: q ++ y :: R ++ pv :: C end); [exact A1|]. unfold B2'. destruct B2; cbn [app]; rewrite <- ?app_assoc; cbn [app]; rewrite <- ?app_assoc; reflexivity. }
      assert (HP2 : Permutation B2 B2') by (unfold B2'; destruct B2; [constructor|apply Permutation_cons_append]).
      assert (HN2 : zlen B2' = zlen B2) by (unfold zlen; f_equal; symmetry; apply Permutation_length; exact HP2).
      destruct (HSw 0%nat) as (st1 & E1 & D1 & G1' & A1). 
      destruct (IH (B1 ++ [x]) B2' st1 D1) as (n2 & st2 & C1 & C2 & E2 & D2 & G2' & A2 & P2 & Q1 & Q2); auto.
      * rewrite G1'. exact HG. * apply Forall_app; auto. * rewrite <- HP2. exact F2.
      * rewrite !zlen_app, ?zlen_cons in *. change (zlen []) with 0. lia.
      * rewrite Hj. unfold j. rewrite !zlen_app, ?zlen_cons in *. change (zlen []) with 0. lia.
      * apply Forall_app; auto. * rewrite <- HP2. exact G2.
      * exists (S (Nat.max 1 (Nat.max n1 n2))), st2, C1, C2. split; [|split; [exact D2|split; [congruence|split; [exact A2|split; [|auto]]]]].
        2: { etransitivity; [|exact P2]. rewrite <- !app_assoc. apply Permutation_app_head. rewrite HP2. cbn [app]. symmetry. apply Permutation_middle. }
        set (N := Nat.max 1 (Nat.max n1 n2)). unfold part_while, part_vars. cbn [fst snd].
        eapply eq_trans; [eapply iterate_step|].
        -- ev. vars. rewrite lt_ints. reflexivity.
        -- rewrite truthy_bool. lia.
        -- erewrite seq_step.
           2: { ev. vars. rewrite Hget. ev. vars. rewrite HG. rewrite Hc by (unfold N; lia). ev. rewrite Hv. ev. vars. rewrite GT. ev. rewrite MT. ev. vars. rewrite (call_mono _ _ _ _ _ _ _ _ _ _ _ E1) by (unfold N; lia). ev. vars. change (num_val strtof [49]) with (OInt 1). rewrite add_ints by (unfold int32_range; lia). ev. unfold assign. vars. ev. reflexivity. }
           cbn [firstn length]. ev. vars. change (num_val strtof [49]) with (OInt 1). rewrite add_ints by (unfold int32_range; lia). ev. unfold assign. vars. ev.
           replace (i + 1) with (zlen (A ++ B1 ++ [x])) by (unfold i; rewrite !zlen_app, zlen_cons; change (zlen []) with 0; lia). replace (j + 1) with (zlen (A ++ (B1 ++ [x]) ++ B2')) by (unfold j; rewrite !zlen_app, HN2, zlen_cons; change (zlen []) with 0; lia). reflexivity.
        -- cbn [Source.at_most again firstn length]. eapply iterate_mono; [|unfold N; apply Nat.le_trans with (Nat.max n1 n2); [apply Nat.le_max_r|apply Nat.le_max_r]]. exact E2.
    + destruct (IH B1 (B2 ++ [x]) st HD) as (n2 & st2 & C1 & C2 & E2 & D2 & G2' & A2 & P2 & Q1 & Q2); auto.
      * apply Forall_app; auto. * rewrite <- app_assoc. exact HA. * rewrite <- app_assoc. exact HL. * rewrite <- app_assoc. exact Hh. * apply Forall_app; auto.
      * exists (S (Nat.max n1 n2)), st2, C1, C2. split; [|split; [exact D2|split; [exact G2'|split; [exact A2|split; [|auto]]]]].
        2: { rewrite <- app_assoc in P2. exact P2. }
        set (N := Nat.max n1 n2). unfold part_while, part_vars. cbn [fst snd].
        eapply eq_trans; [eapply iterate_step|].
        -- ev. vars. rewrite lt_ints. reflexivity.
        -- rewrite truthy_bool. lia.
        -- erewrite seq_step.
           2: { ev. vars. rewrite Hget. ev. vars. rewrite HG. rewrite Hc by (unfold N; lia). ev. rewrite Hv. reflexivity. }
           ev. vars. change (num_val strtof [49]) with (OInt 1). rewrite add_ints by (unfold int32_range; lia). ev. unfold assign. vars. ev.
           replace (j + 1) with (zlen (A ++ B1 ++ B2 ++ [x])) by (unfold j; rewrite !zlen_app, zlen_cons; change (zlen []) with 0; lia). reflexivity.
        -- cbn [Source.at_most again firstn length]. eapply iterate_mono; [|unfold N; apply Nat.le_max_r]. exact E2.
Qed.
Lemma call_inner n id fn self vs st : find (fun fn => ref (fn_id fn) =? ref id) fns = Some fn -> fn_vars fn = inner_vars -> zlen vs = 2 ->
  call (at_most (S n)) (OClos true (ref id) [self; OTab a; cf]) vs st = obind (exec_all (at_most n) (fn_body fn) (combine inner_vars (self :: OTab a :: cf :: vs)) st) (fun '(r, _, st) => Done (match r with Some v => v | None => ONil end, st)).
Proof.
  intros HF HV HL. cbn [Source.at_most call]. unfold apply. rewrite HF, HV. replace (zlen ([self; OTab a; cf] ++ vs) =? zlen inner_vars) with true; [reflexivity|].
  symmetry. apply Z.eqb_eq. rewrite zlen_app, HL. reflexivity.
Qed.
Definition part_val self := OClos true (ref (fst (partition_fun g))) [self; OTab a; cf].
Definition qsort_val self := OClos true (ref (fst (qsort_fun g))) [self; OTab a; cf].
Lemma part_call self A B pv C st : during a st0 st -> P pv -> Forall P B -> at_a st (A ++ B ++ pv :: C) -> zlen (A ++ B ++ pv :: C) < 2 ^ 31 ->
  exists n st' B1 B2, call (at_most n) (part_val self) [OInt (zlen A); OInt (zlen (A ++ B))] st = Done (OInt (zlen (A ++ B1)), st') /\ during a st0 st' /\
    (forall x, x <> bs "pivot" -> s_glob st' x = s_glob st x) /\ at_a st' (A ++ B1 ++ pv :: B2 ++ C) /\ Permutation B (B1 ++ B2) /\ Forall (fun x => le x pv = true) B1 /\ Forall (fun x => le x pv = false) B2.
Proof.
  intros HD Hpv FB HA HL. destruct (tl_partition _ _ _ _ _ _ _ HLib) as (fn & HF & HV & HB).
  assert (HR : 0 <= zlen (A ++ B) < 2 ^ 31). { rewrite !zlen_app, ?zlen_cons in *. pose proof (zlen_pos A). pose proof (zlen_pos B). pose proof (zlen_pos C). lia. }
  assert (Hget : get_val st (OTab a) (OInt (zlen (A ++ B))) = Done pv).
  { destruct HA as (tb & Hb & HA). rewrite (get_arr st a tb _ _ Ha Hb HA) by (unfold int32_range; lia). replace (0 <=? _) with true by lia. rewrite to_zlen, app_assoc, nth_mid. reflexivity. }
  set (st1 := set_glob st [112; 105; 118; 111; 116] pv). assert (HD1 : during a st0 st1) by (apply during_glob; [vm_compute; tauto|exact HD]).
  destruct (part_loop self A C pv (zlen (A ++ B)) Hpv B [] [] st1 HD1) as (n1 & st2 & B1 & B2 & E & D2 & G2 & A2 & P2 & Q1 & Q2); auto.
  destruct (tl_swap _ _ _ _ _ _ _ (lib_during a ta st0 st2 Ha Hta D2 HLib)) as (os & (p & GT & MT) & FS). vm_compute (bs "table") in GT. match type of MT with context [bs ?n] => let y := eval vm_compute in (bs n) in change (bs n) with y in MT end.
  assert (FB2 : Forall P (B1 ++ B2)) by (rewrite <- P2; exact FB). apply Forall_app in FB2 as [FB1 FB2].
  assert (EL : zlen B = zlen B1 + zlen B2) by (rewrite <- zlen_app; unfold zlen; f_equal; apply Permutation_length; exact P2).
  destruct (swap_at n1 os st2 (A ++ B1) pv B2 C FS Hpv) as (st3 & E3 & D3 & G3 & A3).
  { destruct B2; auto. inversion FB2; auto. } { rewrite <- !app_assoc. exact A2. } { rewrite !zlen_app, zlen_cons in *. lia. }
  set (B2' := match B2 with [] => [] | y :: q => q ++ [y] end). assert (HP2 : Permutation B2 B2') by (unfold B2'; destruct B2; [constructor|apply Permutation_cons_append]).
  exists (S (S n1)), st3, B1, B2'. split; [|split; [auto|split; [|split; [|split; [|split; [exact Q1|rewrite <- HP2; exact Q2]]]]]].
  - unfold part_val. rewrite (call_inner _ _ fn) by auto. rewrite HB. unfold partition_fun, inner_vars. change (bs "self") with [115; 101; 108; 102]. change (bs "t") with [116]. change (bs "cmp") with [99; 109; 112]. change (bs "l") with [108]. change (bs "h") with [104]. cbn [combine fst snd].
    erewrite seq_step by (ev; vars; rewrite Hget; ev; unfold assign; vars; reflexivity). fold st1.
    erewrite seq_step by (ev; cbn [is_top app]; vars; reflexivity). erewrite seq_step by (ev; cbn [is_top app]; vars; reflexivity).
    erewrite seq_step. 2: { rewrite while_iterate. change (zlen A) with (zlen (A ++ [] ++ [])) at 3 || idtac. eapply iterate_mono; [|apply (Nat.le_succ_diag_r n1)]. rewrite !app_nil_r in E. exact E. }
    unfold part_vars. ev. vars. rewrite GT. ev. rewrite MT. ev. vars. replace (zlen (A ++ B)) with (zlen (A ++ B1) + zlen B2) by (rewrite !zlen_app, EL; lia). rewrite E3. ev. vars. reflexivity.
  - intros x Hx. rewrite G3, G2. cbn. rewrite same_no; [reflexivity|]. intro H. apply Hx. rewrite <- H. reflexivity.
  - replace (A ++ B1 ++ pv :: B2' ++ C) with ((A ++ B1) ++ match B2 with [] => pv :: C | y :: q => pv :: q ++ y :: C end); [exact A3|]. unfold B2'. destruct B2; cbn [app]; rewrite <- ?app_assoc; cbn [app]; rewrite <- ?app_assoc; reflexivity.
  - cbn [app] in P2. rewrite <- HP2. exact P2.
Qed.
Definition sorted (l : list obj) : Prop := StronglySorted (fun x y => le x y = true) l.
Lemma sorted_mid l1 x l2 : Forall P l1 -> P x -> Forall P l2 -> sorted l1 -> sorted l2 -> Forall (fun y => le y x = true) l1 -> Forall (fun y => le x y = true) l2 -> sorted (l1 ++ x :: l2).
Proof.
  intros F1 Fx F2 S1 S2 H1 H2. induction l1 as [|y l1 IH]; cbn [app]; [constructor; auto|]. inversion S1; inversion F1; inversion H1; subst. constructor; [apply IH; auto|].
  apply Forall_app. split; [assumption|]. constructor; [assumption|]. rewrite Forall_forall in *. intros z Hz. apply (HTr y x z); auto.
Qed.
Lemma qsort_call self : forall m B A C st, (length B <= m)%nat -> during a st0 st -> Forall P B -> at_a st (A ++ B ++ C) -> zlen (A ++ B ++ C) < 2 ^ 31 ->
  s_glob st (bs "partition") = part_val self -> s_glob st (bs "qsort") = qsort_val self ->
  exists n st' B', call (at_most n) (qsort_val self) [OInt (zlen A); OInt (zlen (A ++ B) - 1)] st = Done (ONil, st') /\ during a st0 st' /\
    (forall x, x <> bs "pivot" -> s_glob st' x = s_glob st x) /\ at_a st' (A ++ B' ++ C) /\ Permutation B B' /\ sorted B'.
Proof.
  destruct (tl_qsort _ _ _ _ _ _ _ HLib) as (fn & HF & HV & HB).
  assert (HE : forall n B A st, call (at_most (S n)) (qsort_val self) [OInt (zlen A); OInt (zlen (A ++ B) - 1)] st = obind (exec_all (at_most n) (snd (snd (qsort_fun g))) [([115; 101; 108; 102], self); ([116], OTab a); ([99; 109; 112], cf); ([108], OInt (@zlen obj A)); ([104], OInt (zlen (A ++ B) - 1))] st) (fun '(r, _, st) => Done (match r with Some v => v | None => ONil end, st))).
  { intros n B A st. unfold qsort_val. rewrite (call_inner _ _ fn) by auto. rewrite HB. reflexivity. }
  assert (H1 : forall B A C st, (length B <= 1)%nat -> during a st0 st -> at_a st (A ++ B ++ C) -> zlen (A ++ B ++ C) < 2 ^ 31 ->
    exists n st' B', call (at_most n) (qsort_val self) [OInt (zlen A); OInt (zlen (A ++ B) - 1)] st = Done (ONil, st') /\ during a st0 st' /\ (forall x, x <> bs "pivot" -> s_glob st' x = s_glob st x) /\ at_a st' (A ++ B' ++ C) /\ Permutation B B' /\ sorted B').
  { intros B A C st Hm HD HA HL. exists 1%nat, st, B. split; [|split; [exact HD|split; [reflexivity|split; [exact HA|split; [apply Permutation_refl|]]]]].
    - rewrite HE. unfold qsort_fun. cbn [fst snd]. erewrite seq_step by (ev; vars; rewrite lt_ints; ev; rewrite truthy_bool; replace (zlen A <? zlen (A ++ B) - 1) with false by (rewrite zlen_app; unfold zlen; lia); reflexivity). reflexivity.
    - destruct B as [|b [|c B]]; [constructor|repeat constructor|cbn in Hm; lia]. }
  induction m as [|m IH]; intros B A C st Hm HD FB HA HL Hp Hq; [apply H1; auto; lia|].
  destruct (Nat.le_gt_cases (length B) 1) as [HB1|HB1]; [apply H1; auto|].
  destruct (exists_last (l := B)) as (B0 & pv & ->); [destruct B; [cbn in HB1; lia|discriminate]|]. rewrite app_length in Hm, HB1. cbn [length] in Hm, HB1. apply Forall_app in FB as [FB0 Fp]. inversion Fp as [|? ? Ppv _]; subst x l.
  rewrite <- app_assoc in HA, HL. cbn [app] in HA, HL.
  destruct (part_call self A B0 pv C st HD Ppv FB0 HA HL) as (n1 & st1 & B1 & B2 & E1 & D1 & G1 & A1 & P1 & Q1 & Q2).
  assert (EL : length B0 = (length B1 + length B2)%nat) by (rewrite <- app_length; apply Permutation_length; exact P1).
  assert (FB12 : Forall P (B1 ++ B2)) by (rewrite <- P1; exact FB0). apply Forall_app in FB12 as [FB1 FB2].
  destruct (IH B1 A (pv :: B2 ++ C) st1 ltac:(lia) D1 FB1 A1) as (n2 & st2 & B1' & E2 & D2 & G2 & A2 & P2 & S2).
  { rewrite !zlen_app, !zlen_cons, ?zlen_app in *. unfold zlen in *. lia. } { rewrite G1 by discriminate. exact Hp. } { rewrite G1 by discriminate. exact Hq. }
  assert (EL1 : length B1' = length B1) by (symmetry; apply Permutation_length; exact P2).
  destruct (IH B2 (A ++ B1' ++ [pv]) C st2 ltac:(lia) D2 FB2) as (n3 & st3 & B2' & E3 & D3 & G3 & A3 & P3 & S3).
  { rewrite <- !app_assoc. exact A2. } { rewrite !zlen_app, !zlen_cons, ?zlen_app in *. unfold zlen in *. cbn [length]. lia. } { rewrite G2, G1 by discriminate. exact Hp. } { rewrite G2, G1 by discriminate. exact Hq. }
  exists (S (Nat.max n1 (Nat.max n2 n3))), st3, (B1' ++ pv :: B2'). split; [|split; [exact D3|split; [|split; [|split]]]].
  - set (N := Nat.max n1 (Nat.max n2 n3)). rewrite HE. unfold qsort_fun. cbn [fst snd]. erewrite seq_step.
    2: { ev. vars. rewrite lt_ints. ev. rewrite truthy_bool. replace (zlen A <? zlen (A ++ B0 ++ [pv]) - 1) with true by (rewrite !zlen_app, zlen_cons; unfold zlen in *; cbn [length]; lia).
      ev. cbn [is_top app]. ev. vars. vm_compute (bs "partition") in Hp. rewrite Hp. ev. replace (zlen (A ++ B0 ++ [pv]) - 1) with (zlen (A ++ B0)) by (rewrite !zlen_app, zlen_cons; change (zlen []) with 0; lia).
      rewrite (call_mono _ _ _ _ _ _ _ _ _ _ _ E1) by (unfold N; lia). ev. vars. assert (Hq1 : s_glob st1 [113; 115; 111; 114; 116] = qsort_val self) by (rewrite G1 by discriminate; exact Hq). rewrite Hq1. change (num_val strtof [49]) with (OInt 1).
      assert (R1 : 0 <= zlen (A ++ B1) < 2 ^ 31 - 1 /\ zlen (A ++ B0) < 2 ^ 31) by (rewrite !zlen_app, !zlen_cons in *; unfold zlen in *; lia).
      rewrite sub_ints by (unfold int32_range; lia). ev. rewrite (call_mono _ _ _ _ _ _ _ _ _ _ _ E2) by (unfold N; lia). ev. vars. assert (Hq2 : s_glob st2 [113; 115; 111; 114; 116] = qsort_val self) by (rewrite G2 by discriminate; exact Hq1). rewrite Hq2.
      rewrite add_ints by (unfold int32_range; lia). ev. vars.
      replace (zlen (A ++ B1) + 1) with (zlen (A ++ B1' ++ [pv])) by (rewrite !zlen_app, zlen_cons; unfold zlen; rewrite EL1; cbn [length]; lia). replace (zlen (A ++ B0)) with (zlen ((A ++ B1' ++ [pv]) ++ B2) - 1) by (rewrite !zlen_app, zlen_cons; unfold zlen; rewrite EL1, EL; cbn [length]; lia).
      rewrite (call_mono _ _ _ _ _ _ _ _ _ _ _ E3) by (unfold N; lia). ev. reflexivity. }
    reflexivity.
  - intros x Hx. rewrite G3, G2, G1 by exact Hx. reflexivity.
  - rewrite <- !app_assoc in A3. cbn [app] in A3. rewrite <- app_assoc. exact A3.
  - rewrite <- P2, <- P3. rewrite P1. rewrite <- app_assoc. apply Permutation_app_head. symmetry. apply Permutation_cons_append.
  - apply sorted_mid; auto; [rewrite <- P2; auto|rewrite <- P3; auto|rewrite <- P2; auto|rewrite <- P3]. rewrite Forall_forall in *. intros y Hy. destruct (HT pv y) as [H|H]; auto. rewrite (Q2 y Hy) in H. discriminate.
Qed.
Lemma sort_call f L : fun_value ref fns f (sort_fun g) -> at_a st0 L -> Forall P L -> zlen L < 2 ^ 31 ->
  exists st' L', returns f [OTab a; cf] st0 ONil st' /\ during a st0 st' /\ at_a st' L' /\ Permutation L L' /\ sorted L'.
Proof.
  intros HF HA HP HL. pose proof (fun n => call_fun strtof powf sid ref fns cfun n f _ [OTab a; cf] st0 HF eq_refl) as HC0.
  destruct HF as (r & self & fn & -> & HF & HV & HB).
  assert (HE : forall n, call (at_most (S n)) (OClos true r [self]) [OTab a; cf] st0 = obind (exec_all (at_most n) (snd (sort_fun g)) [([115; 101; 108; 102], self); ([116], OTab a); ([99; 109; 112], cf)] st0) (fun '(r, _, st) => Done (match r with Some v => v | None => ONil end, st))).
  { intro n. cbn [Source.at_most call]. unfold apply. rewrite HF, HV, HB. reflexivity. }
  clear HC0. set (st1 := set_glob (set_glob st0 [112; 97; 114; 116; 105; 116; 105; 111; 110] (part_val self)) [113; 115; 111; 114; 116] (qsort_val self)).
  assert (D1 : during a st0 st1) by (apply during_glob; [vm_compute; tauto|apply during_glob; [vm_compute; tauto|apply during_refl]]).
  destruct (qsort_call self (length L) L [] [] st1) as (n & st2 & L' & E & D & _ & A & Pm & S); auto.
  { rewrite app_nil_r. exact HA. } { rewrite app_nil_r. exact HL. }
  exists st2, L'. rewrite app_nil_r in A. split; [|auto]. exists (Datatypes.S n). intros m Hm. apply call_mono with (n := Datatypes.S n); [|exact Hm]. rewrite HE. unfold sort_fun. cbn [snd].
  erewrite seq_step by (ev; unfold assign; vars; reflexivity). erewrite seq_step by (ev; unfold assign; vars; reflexivity). unfold fun_val. cbn [map snd]. change (OClos true (ref (g 190)) [self; OTab a; cf]) with (part_val self). change (OClos true (ref (g 112)) [self; OTab a; cf]) with (qsort_val self). fold st1.
  ev. vars. change (num_val strtof [48]) with (OInt 0).
  assert (HSz : call (at_most n) (s_glob st1 [115; 105; 122; 101]) [OTab a] st1 = Done (OInt (zlen L), st1)).
  { rewrite (call_c_value _ _ _ _ _ _ _ _ _ _ _ (tl_size _ _ _ _ _ _ _ HLib)). cbn [one_arg]. destruct HA as (tb & Hb & HA). unfold size_of. replace (a <? 0) with false by lia. change (s_heap st1) with (s_heap st0). rewrite Hb, (ar_size _ _ HA). replace (zlen L <? 2 ^ 31) with true by lia. reflexivity. }
  rewrite HSz. ev. change (num_val strtof [49]) with (OInt 1). rewrite sub_ints by (unfold int32_range; pose proof (zlen_pos L); lia). ev. cbn [app] in E. change (zlen []) with 0 in E. change (s_glob st1 [113; 115; 111; 114; 116]) with (qsort_val self). rewrite E. reflexivity.
Qed.
End Sort.
End Bzz.

(** ** Scripts that include table.bzz *)
Lemma funs_app l r f : forall sc, In f (funs_ss sc l) -> In f (funs_ss sc (stats_app l r)).
Proof. induction l as [|s l IH]; intros sc H; [destruct H|]. cbn [stats_app]. change (In f (funs_s sc s ++ funs_ss (after sc s) (stats_app l r))). change (In f (funs_s sc s ++ funs_ss (after sc s) l)) in H. apply in_app_iff in H. apply in_app_iff. destruct H; auto. Qed.
Lemma loaded_table X c fid robot (st0 st : sst X) strtof powf sid ref fns g : library fid robot st0 st -> strings_ok (s_str st) ->
  (forall n, In n table_names -> 0 <= sid (bs n) < 65536 /\ sm_get (s_str st) (sid (bs n)) = Some (bs n)) ->
  0 <= fid "buzzobj_size"%string < 2 ^ 31 -> (forall n, In n (map fst (@std_meanings c X)) -> fid n = fid "buzzobj_size"%string -> n = "buzzobj_size"%string) ->
  (forall f, In f (functions (table_bzz_with g Ss_nil)) -> In f fns) -> (forall f h, In f fns -> In h fns -> ref (fn_id f) = ref (fn_id h) -> f = h) ->
  exists st', (forall k r, exec_all strtof powf sid ref k (table_bzz_with g r) [] st = exec_all strtof powf sid ref k r [] st') /\
    table_lib sid ref fns (std_cfun c fid) g (zlen (s_heap st)) st' /\ (forall y, y <> bs "table" -> s_glob st' y = s_glob st y) /\ s_str st' = s_str st /\ s_ext st' = s_ext st /\ exists t, s_heap st' = s_heap st ++ [t].
Proof.
  intros HL HS HK F1 FN HF HU. set (a := zlen (s_heap st)). set (st1 := set_glob (set_tabs st (s_heap st ++ [tab_new])) (bs "table") (OTab a)).
  assert (HGS : good_strings (s_str st)) by (split; [destruct HS as (o1 & o2 & P1 & P2); exists o1, o2; split; assumption|exact (lib_live _ _ _ _ HL)]).
  assert (Ha : 0 <= a) by (unfold a, zlen; lia). assert (HT : nth_error (s_heap st1) (Z.to_nat a) = Some tab_new) by (unfold a; rewrite to_zlen; cbn [st1 set_glob set_tabs s_heap]; apply nth_mid).
  assert (HB : made (s_str st1) tab_new) by (exists []; split; [constructor|reflexivity]).
  assert (HLV : forall n, In n table_names -> live_key (s_str st) (OStr (sid (bs n)) (bs n))).
  { intros n Hn. destruct (HK n Hn). cbn. split; [lia|]. split; [assumption|]. cbn in Hn. repeat (destruct Hn as [<-|Hn]; [reflexivity|]). destruct Hn. }
  destruct (puts_ok strtof powf sid ref "table" a (table_members g) st1 tab_new eq_refl Ha HT HGS HB) as (t' & E & M' & I1 & _).
  { unfold table_members. repeat (constructor; [apply HLV; cbn; tauto|]). constructor. }
  { nodup. }
  set (st2 := set_tabs st1 (upd (s_heap st1) (Z.to_nat a) t')). exists st2. split; [|split; [|split; [|split; [reflexivity|split; [reflexivity|]]]]].
  - intros k r. transitivity (exec_all strtof powf sid ref k (puts "table" (table_members g) r) [] st1); [|apply E].
    change (table_bzz_with g r) with (Ss_cons (S_assign (bs "table") (E_table F_nil)) (puts "table" (table_members g) r)). apply seq_step. reflexivity.
  - assert (HT' : table_at (s_heap st2) a = Done t'). { unfold table_at, st2. cbn [set_tabs s_heap]. replace (0 <=? a) with true by lia. rewrite upd_nth_error by (apply nth_error_Some; congruence). rewrite Nat.eqb_refl. reflexivity. }
    assert (HC : forall n o, tab_get t' (OStr (sid (bs n)) (bs n)) = Ok (Some o) -> member sid st2 "table" n o).
    { intros n o H. exists a. split; [reflexivity|]. cbn [get_val is_key]. rewrite HT'. cbn [obind]. rewrite H. reflexivity. }
    assert (HFV : forall n i f, In (n, i, f) (table_members g) -> In (mkFn i (bs "self" :: fst f) (snd f)) (functions (table_bzz_with g Ss_nil)) -> exists o, member sid st2 "table" n o /\ fun_value ref fns o f).
    { intros n i f Hin Hfn. exists (OClos true (ref i) [OTab a]). split; [apply HC, (I1 n i f Hin)|]. exists (ref i), (OTab a), (mkFn i (bs "self" :: fst f) (snd f)). split; [reflexivity|]. split; [|split; reflexivity]. exact (found_fun ref fns _ (HF _ Hfn) HU). }
    constructor.
    + reflexivity.
    + assert (HG : s_glob st2 (bs "size") = s_glob st (bs "size")) by reflexivity. rewrite HG. pose proof (lib_globals _ _ _ _ HL "size"%string (V_C "buzzobj_size") ltac:(cbn; tauto)) as HD. cbn [denotes] in HD. rewrite HD.
      eexists _, _. split; [reflexivity|]. intros args st3. rewrite PgFun.sign32_id by lia. unfold std_cfun.
      assert (HFd : forall l, (forall n, In n (map fst l) -> fid n = fid "buzzobj_size"%string -> n = "buzzobj_size"%string) -> find (fun e => fid (fst e) =? fid "buzzobj_size"%string) l = find (fun e : string * (list obj -> sst X -> out (obj * sst X)) => String.eqb (fst e) "buzzobj_size") l).
      { intros l Hl. induction l as [|[n m] l IH]; [reflexivity|]. cbn [find fst]. cbn [map fst] in Hl. destruct (String.eqb_spec n "buzzobj_size") as [->|Hne]; [rewrite Z.eqb_refl; reflexivity|].
        replace (fid n =? fid "buzzobj_size"%string) with false; [apply IH; intros; apply Hl; [right|]; assumption|]. symmetry. apply Z.eqb_neq. intro Q. apply Hne, Hl; [left; reflexivity|exact Q]. }
      rewrite HFd by exact FN. unfold std_meanings. cbn [app find fst String.eqb Ascii.eqb Bool.eqb]. cbn [snd]. destruct args as [|? [|]]; reflexivity.
    + eapply HFV; [unfold table_members; do 5 right; left; reflexivity|cbn; tauto].
    + eapply HFV; [unfold table_members; do 6 right; left; reflexivity|cbn; tauto].
    + eapply HFV; [unfold table_members; do 7 right; left; reflexivity|cbn; tauto].
    + eexists. split; [apply (found_fun ref fns (mkFn (fst (partition_fun g)) inner_vars (snd (snd (partition_fun g))))); [apply HF; cbn; tauto|exact HU]|split; reflexivity].
    + eexists. split; [apply (found_fun ref fns (mkFn (fst (qsort_fun g)) inner_vars (snd (snd (qsort_fun g))))); [apply HF; cbn; tauto|exact HU]|split; reflexivity].
  - intros y Hy. change (s_glob st2 y) with (if same (bs "table") y then OTab a else s_glob st y). rewrite same_no by congruence. reflexivity.
  - exists t'. unfold st2, st1, a. cbn [set_tabs set_glob s_heap]. rewrite to_zlen. apply upd_snoc.
Qed.

(** ** C109: scripts that include table.bzz *)
(** A script that starts with the statements of table.bzz, by including it or otherwise: after them, the table [table] has the functions of
    the file, the rest of the library is as before, and the rest of the script executes as the language says from there. *)
Theorem C109_table_bzz :
  forall strtof open name path text ps ts g r,
  let l := table_bzz_with g r in
  open name = Some (path, text) -> text ++ [NL] = layout ps -> reads open [path] path [] ps ts ->
  (forall t, In t ts -> t_line t < 2 ^ 63 /\ t_col t < 2 ^ 63 /\ plain_path (t_file t)) ->
  spells_script ts l -> ok_script strtof l = true ->
  NoDup (map fn_id (functions l)) -> zlen (nodup (list_eq_dec Z.eq_dec) (words l)) <= 65534 ->
  exists k0 asm, (forall k, (k0 <= k)%nat -> bzzparse open k [] name = Ok (Some asm)) /\
  (zlen asm < 2 ^ 31 ->
   exists code dbg sid ref,
     buzz_asm strtof asm = Ok (0, code, dbg) /\
     exists m, forall X (x : X) c fid robot flist powf fuel, std_registered c fid flist ->
     (forall n, In n (map fst (@std_meanings c X)) -> fid n = fid "buzzobj_size"%string -> n = "buzzobj_size"%string) -> (m <= fuel)%nat ->
     exists v, load_code flist powf code fuel (vm_new x) = Ok (v, true) /\
       (sm_live (v_str v) + zlen library_names < 65534 ->
        exists v1 ta st, load_all fid flist powf code robot fuel (vm_new x) = Ok (v1, S_READY) /\
          table_lib sid ref (functions l) (std_cfun c fid) g ta st /\ ta = zlen (v_heap v1) /\ s_str st = v_str v1 /\ strings_ok (s_str st) /\ s_ext st = x /\
          (forall n, executes code (keeping (v_str v)) sid (words l) (fun fuel => execute_script flist powf (byte code) (zlen code) fuel v1)
                       (run strtof powf sid ref (functions l) (std_cfun c fid) n r st)) /\
          ((forall n, run strtof powf sid ref (functions l) (std_cfun c fid) n r st = More) ->
           forall fuel, execute_script flist powf (byte code) (zlen code) fuel v1 = Hang))).
Proof.
  intros strtof open name path text ps ts g r l HO HT HR HP HS HOK HID HW.
  destruct (C103_standard_library strtof open name path text ps ts l HO HT HR HP HS HOK HID HW) as (k0 & asm & HC & H). exists k0, asm. split; [exact HC|]. intro HA.
  destruct (H HA) as (code & dbg & sid & ref & H1 & H2 & HRG & m & H3). exists code, dbg, sid, ref. split; auto. exists m. intros X x c fid robot flist powf fuel HG HFN Hf.
  destruct (H3 X x fid robot flist powf fuel Hf) as (v & V1 & V2). exists v. split; auto. intro HLv. destruct (V2 HLv) as (v1 & st & W1 & W2 & W3 & W4).
  destruct W3 as (_ & _ & _ & _ & _ & _ & AH & A4 & A5 & _ & A7 & A8).
  assert (HWD : forall n, In n table_names -> In (bs n) (words l)).
  { intros n Hn. unfold l. cbn in Hn. repeat (destruct Hn as [<-|Hn]; [vm_compute; tauto|]). destruct Hn. }
  destruct (loaded_table X c fid robot _ st strtof powf sid ref (functions l) g W2) as (st' & L0 & L1 & L2 & L3 & L4 & _).
  { rewrite <- A4. exact (proj1 A7). }
  { intros n Hn. split; [apply HRG; auto|]. rewrite <- A4. apply A8; auto. }
  { apply (HG "buzzobj_size"%string obj_size). cbn. tauto. }
  { exact HFN. }
  { intros f Hfn. apply (funs_app (table_bzz_with g Ss_nil) r). exact Hfn. }
  { exact H2. }
  exists v1, (zlen (s_heap st)), st'. split; [exact W1|]. split; [exact L1|]. split; [congruence|]. split; [congruence|]. split; [rewrite L3, <- A4; exact (proj1 A7)|]. split; [rewrite L4; exact (lib_ext _ _ _ _ W2)|].
  assert (HRun : forall n, run strtof powf sid ref (functions l) (std_cfun c fid) n l st = run strtof powf sid ref (functions l) (std_cfun c fid) n r st') by (intro n; unfold run, l; rewrite L0; reflexivity).
  destruct (W4 _ (std_ok X c fid flist (v_str v) HG)) as [Z1 Z2]. split; [intro n; rewrite <- HRun; apply Z1|]. intros HM. apply Z2. intro n. rewrite HRun. apply HM.
Qed.
Print Assumptions C109_table_bzz.

(** ** C109, C110: what swap and sort do *)
Section Claims.
Context {X : Type}.
Variables (strtof : list Z -> option Z) (powf : libm) (sid : str -> Z) (ref : Z -> Z) (fns : list func) (cfun : Z -> list obj -> sst X -> out (obj * sst X)) (g : Z -> Z).
Notation table_lib := (table_lib sid ref fns cfun g).
Notation returns := (returns sid ref fns cfun strtof powf).
(** The elements under [i] and [j] change places; nothing else changes. *)
Theorem C109_swap : forall f a ta tb l i j x y (st : sst X), table_lib ta st -> member sid st "table" "swap" f ->
  0 <= a -> nth_error (s_heap st) (Z.to_nat a) = Some tb -> int_list tb l -> zlen l < 2 ^ 31 ->
  nth_error l i = Some x -> nth_error l j = Some y -> storable x -> storable y ->
  exists tb' l', returns f [OTab a; OInt (Z.of_nat i); OInt (Z.of_nat j)] st ONil (with_table st a tb') /\ int_list tb' l' /\ length l' = length l /\
    forall k, nth_error l' k = if Nat.eqb k i then Some y else if Nat.eqb k j then Some x else nth_error l k.
Proof.
  intros f a ta tb l i j x y st HL HM Ha Hb HA Hl Hi Hj Sx Sy. destruct (tl_swap _ _ _ _ _ _ _ HL) as (o & M & F). rewrite (member_one _ _ _ _ _ _ HM M). apply arr_int_list in HA; [|exact Hl].
  assert (Li : (i < length l)%nat) by (apply nth_error_Some; congruence). assert (Lj : (j < length l)%nat) by (apply nth_error_Some; congruence).
  destruct (swap_call strtof powf sid ref fns cfun g 0 o a (Z.of_nat i) (Z.of_nat j) tb l x y st F Ha Hb HA Hl) as (tb' & E & A'); try lia; auto; try (rewrite Nat2Z.id; assumption).
  exists tb', (upd (upd l i y) j x). split; [exists 1%nat; intros n Hn; eapply call_mono; eauto|]. rewrite !Nat2Z.id in A'. split; [apply arr_int_list; [unfold zlen in *; rewrite !upd_length; exact Hl|exact A']|]. split; [rewrite !upd_length; reflexivity|].
  intro k. rewrite upd_nth_error by (rewrite upd_length; exact Lj). rewrite upd_nth_error by exact Li. rewrite !(Nat.eqb_sym k). destruct (Nat.eqb_spec j k); destruct (Nat.eqb_spec i k); subst; auto; congruence.
Qed.
(** The table has the elements of the list in order: for every list of values that a table keeps, every function [cf] that compares two of
    them, whatever the state during the sort, without changing it, by a total and transitive relation.  Nothing else changes but the global
    variables partition, qsort and pivot. *)
Theorem C110_sort : forall f a ta tb l cf le (st : sst X), table_lib ta st -> member sid st "table" "sort" f ->
  0 <= a -> a <> ta -> nth_error (s_heap st) (Z.to_nat a) = Some tb -> int_list tb l -> zlen l < 2 ^ 31 ->
  (forall x, In x l -> storable x) ->
  (forall x y st', In x l -> In y l -> during a st st' -> exists v, truthy v = le x y /\ returns cf [x; y] st' v st') ->
  (forall x y, In x l -> In y l -> le x y = true \/ le y x = true) ->
  (forall x y z, In x l -> In y l -> In z l -> le x y = true -> le y z = true -> le x z = true) ->
  exists st' tb' l', returns f [OTab a; cf] st ONil st' /\ during a st st' /\ nth_error (s_heap st') (Z.to_nat a) = Some tb' /\ int_list tb' l' /\
    Permutation l l' /\ StronglySorted (fun x y => le x y = true) l'.
Proof.
  intros f a ta tb l cf le st HL HM Ha Hta Hb HA Hl HS HC HT HTr. destruct (tl_sort _ _ _ _ _ _ _ HL) as (o & M & F). rewrite (member_one _ _ _ _ _ _ HM M). apply arr_int_list in HA; [|exact Hl].
  destruct (sort_call strtof powf sid ref fns cfun g st a ta cf (fun x => In x l) le Ha) with (f := o) (L := l) as (st' & l' & E & D & (tb' & Hb' & A') & Pm & S); auto.
  { exists tb. auto. } { apply Forall_forall. auto. }
  exists st', tb', l'. split; [exact E|]. split; [exact D|]. split; [exact Hb'|]. split; [|split; [exact Pm|exact S]]. apply arr_int_list; [unfold zlen in *; rewrite <- (Permutation_length Pm); exact Hl|exact A'].
Qed.
(** With table.cmp_number, on integers: increasing order. *)
Theorem C110_sort_numbers : forall f cf a ta tb l (st : sst X), table_lib ta st -> member sid st "table" "sort" f -> member sid st "table" "cmp_number" cf ->
  0 <= a -> a <> ta -> nth_error (s_heap st) (Z.to_nat a) = Some tb -> int_list tb (map OInt l) -> zlen l < 2 ^ 31 ->
  exists st' tb' l', returns f [OTab a; cf] st ONil st' /\ during a st st' /\ nth_error (s_heap st') (Z.to_nat a) = Some tb' /\ int_list tb' (map OInt l') /\
    Permutation l l' /\ StronglySorted Z.le l'.
Proof.
  intros f cf a ta tb l st HL HM HMc Ha Hta Hb HA Hl. destruct (tl_cmp _ _ _ _ _ _ _ HL) as (oc & Mc & Fc). rewrite (member_one _ _ _ _ _ _ HMc Mc). clear HMc Mc.
  assert (HI : forall x, In x (map OInt l) -> exists z, x = OInt z) by (intros x Hx; apply in_map_iff in Hx as (z & <- & _); eauto).
  set (le := fun x y => match x, y with OInt i, OInt j => i <=? j | _, _ => false end).
  destruct (C110_sort f a ta tb (map OInt l) oc le st HL HM Ha Hta Hb HA) as (st' & tb' & l' & E & D & Hb' & A' & Pm & S).
  - unfold zlen in *. rewrite map_length. exact Hl.
  - intros x Hx. destruct (HI x Hx) as (z & ->). exact I.
  - intros x y st' Hx Hy _. destruct (HI x Hx) as (i & ->). destruct (HI y Hy) as (j & ->). exists (of_bool (i <=? j)). split; [apply truthy_bool|]. exists 1%nat. intros n Hn. apply call_mono with (n := 1%nat); [|exact Hn].
    destruct (call_fun strtof powf sid ref fns cfun 0 oc _ [OInt i; OInt j] st' Fc eq_refl) as (self & ->). unfold cmp_number_fun. change (bs "self") with [115; 101; 108; 102]. cbn [combine fst snd]. cbn [Source.exec_all Source.exec Source.eval then_ obind fst snd app]. vars.
    assert (EB : bin_val powf B_lte (OInt i) (OInt j) = Done (of_bool (i <=? j))). { cbn [bin_val]. unfold compared. cbn [obj_cmp obj_cmp_by of_res obind]. unfold intkeycmp. destruct (i <? j) eqn:E1; [replace (i <=? j) with true by lia; reflexivity|]. destruct (i >? j) eqn:E2; [replace (i <=? j) with false by lia|replace (i <=? j) with true by lia]; reflexivity. }
    rewrite EB. reflexivity.
  - intros x y Hx Hy. destruct (HI x Hx) as (i & ->). destruct (HI y Hy) as (j & ->). cbn. lia.
  - intros x y z Hx Hy Hz. destruct (HI x Hx) as (i & ->). destruct (HI y Hy) as (j & ->). destruct (HI z Hz) as (k & ->). cbn. lia.
  - destruct (Permutation_map_inv _ _ (Permutation_sym Pm)) as (l2 & -> & P2). exists st', tb', l2. split; [exact E|]. split; [exact D|]. split; [exact Hb'|]. split; [exact A'|]. split; [exact P2|].
    clear - S. induction l2 as [|z l2 IH]; [constructor|]. cbn [map] in S. inversion S as [|? ? S1 S2]; subst. constructor; [auto|]. rewrite Forall_forall in *. intros k Hk. specialize (S2 (OInt k) (in_map OInt _ _ Hk)). cbn in S2. lia.
Qed.
End Claims.
Print Assumptions C109_swap.
Print Assumptions C110_sort.
Print Assumptions C110_sort_numbers.

(** ** A script *)
Definition sort_files (name : list Z) : option (list Z * list Z) :=
  if list_eq_dec Z.eq_dec name (bs "main") then Some (bs "/main", bs "include 'table.bzz'
t = {.0=7, .1=3, .2=7, .3=-2, .4=5}
table.sort(t, table.cmp_number)
a = t[0]
b = t[1]
c = t[2]
d = t[3]
e = t[4]
table.swap(t, 0, 4)
f = t[0]
n = size(t)")
  else if list_eq_dec Z.eq_dec name (bs "table.bzz") then table_bzz_file [] else None.
Definition sort_script : stats := got_script (script_of no_strtof_ sort_files 5000 (bs "main")).
Definition sort_code : list Z := got_code (buzz_asm no_strtof_ (got_asm (bzzparse sort_files 9000 [] (bs "main")))).
Definition sort_load : res (vm unit * vstat) := load_all demo_fid demo_flist no_powf sort_code 12 200 (vm_new tt).
Definition sort_vm : vm unit := got_vm sort_load.
Definition sort_sid (t : str) : Z := got_id (s2i_get (str2id (v_str sort_vm)) t).
Definition sort_glob {X} (v : vm X) (t : str) : obj := got_obj (gsym_get (v_gsyms v) (sort_sid t)).
Definition sort_end (g : str -> obj) : Prop :=
  g (bs "a") = OInt (-2) /\ g (bs "b") = OInt 3 /\ g (bs "c") = OInt 5 /\ g (bs "d") = OInt 7 /\ g (bs "e") = OInt 7 /\ g (bs "f") = OInt 7 /\ g (bs "n") = OInt 5.
Definition sort_shift : Z := Eval vm_compute in (member_id "table" "max" sort_script - member_id "table" "max" table_bzz).
(** It starts with the statements of table.bzz, and satisfies the hypotheses of C109; the machine does what the meaning says. *)
Example C109_C110_case :
  holds_script no_strtof_ sort_files (bs "main") sort_script /\ (exists g r, sort_script = table_bzz_with g r) /\
  NoDup (map fn_id (functions sort_script)) /\ (forall n, In n (map fst (@std_meanings demo_c unit)) -> demo_fid n = demo_fid "buzzobj_size"%string -> n = "buzzobj_size"%string) /\ sm_live (v_str sort_vm) < 1000 /\
  done_with (fun st => sort_end (s_glob st))
    (run no_strtof_ no_powf sort_sid (fun i => i) (functions sort_script) (std_cfun demo_c demo_fid) 12 sort_script (mkSt (sort_glob sort_vm) (v_heap sort_vm) (v_str sort_vm) tt)) /\
  ok_with (fun w => v_state w = S_DONE /\ sort_end (sort_glob w)) (execute_script demo_flist no_powf (byte sort_code) (zlen sort_code) 20000 sort_vm).
Proof.
  split; [apply (script_of_ok _ _ 5000); vm_compute; reflexivity|]. split; [exists (fun i => i + sort_shift); vm_compute; eexists; reflexivity|].
  split; [apply (NoDup_count_occ' Z.eq_dec); intros x H; vm_compute in H; repeat (destruct H as [<-|H]; [vm_compute; reflexivity|]); destruct H|].
  split; [intros n Hn; cbn [std_meanings map app fst snd String.append] in Hn; repeat (destruct Hn as [<-|Hn]; [vm_compute; first [reflexivity|discriminate]|]); destruct Hn|].
  split; [vm_compute; reflexivity|]. split; vm_compute; repeat split.
Qed.
