(** Tools to follow the execution of a script in the meaning of Source.v. *)
From Coq Require Import String.
From Verif Require Import Base ListLemmas Float Dict DictProofs PDict PDictKeys Strman StrmanSpec StrmanProofs Obj ObjSpec ObjProofs Instr Vm VmSpec VmProofs Text WireProofs CFunSpec CFunProofs Source CompileSpec GcSpec HostSpec NeighborsVmSpec NeighborsVmProofs PropsSwarmExec PropsVmData PropsNeighborsAdd PropsHost Meaning StringBzz.
Local Open Scope Z_scope.
Local Open Scope list_scope.

Lemma truthy_bool b : truthy (of_bool b) = b. Proof. destruct b; reflexivity. Qed.
Section Values.
Variable powf : libm.
Lemma lt_ints a b : bin_val powf B_lt (OInt a) (OInt b) = Done (of_bool (a <? b)).
Proof. cbn [bin_val]. unfold compared. cbn [obj_cmp obj_cmp_by of_res obind]. unfold intkeycmp. destruct (a <? b) eqn:E; [reflexivity|]. destruct (a >? b); reflexivity. Qed.
Lemma gt_ints a b : bin_val powf B_gt (OInt a) (OInt b) = Done (of_bool (a >? b)).
Proof. cbn [bin_val]. unfold compared. cbn [obj_cmp obj_cmp_by of_res obind]. unfold intkeycmp. destruct (a <? b) eqn:E; [replace (a >? b) with false by lia; reflexivity|]. destruct (a >? b); reflexivity. Qed.
Lemma gte_ints a b : bin_val powf B_gte (OInt a) (OInt b) = Done (of_bool (a >=? b)).
Proof. cbn [bin_val]. unfold compared. cbn [obj_cmp obj_cmp_by of_res obind]. unfold intkeycmp. destruct (a <? b) eqn:E; [replace (a >=? b) with false by lia; reflexivity|]. destruct (a >? b) eqn:E2; replace (a >=? b) with true by lia; reflexivity. Qed.
Lemma neq_ints a b : bin_val powf B_neq (OInt a) (OInt b) = Done (of_bool (negb (a =? b))).
Proof. cbn [bin_val]. unfold compared. cbn [obj_cmp obj_cmp_by of_res obind]. unfold intkeycmp. destruct (a <? b) eqn:E; [replace (a =? b) with false by lia; reflexivity|]. destruct (a >? b) eqn:E2; [replace (a =? b) with false by lia|replace (a =? b) with true by lia]; reflexivity. Qed.
Lemma add_ints a b : int32_range (a + b) -> bin_val powf B_add (OInt a) (OInt b) = Done (OInt (a + b)).
Proof. unfold int32_range. intro H. cbn [bin_val]. unfold numbers. cbn [is_num andb arith]. unfold int_add, i32, int32_rangeb. replace (_ && _) with true by lia. reflexivity. Qed.
Lemma sub_ints a b : int32_range (a - b) -> bin_val powf B_sub (OInt a) (OInt b) = Done (OInt (a - b)).
Proof. unfold int32_range. intro H. cbn [bin_val]. unfold numbers. cbn [is_num andb arith]. unfold int_sub, i32, int32_rangeb. replace (_ && _) with true by lia. reflexivity. Qed.
Lemma c_strcmp_zero t u : c_strcmp powf t u = 0 <-> t = u.
Proof. pose proof (c_strcmp_sign powf t u) as H. rewrite <- strcmp_eq, <- H. symmetry. apply Z.sgn_null_iff. Qed.
Lemma eq_strs i t j u : c_strcmp powf t u <> 2 -> bin_val powf B_eq (OStr i t) (OStr j u) = Done (of_bool (same t u)).
Proof.
  intro H2. cbn [bin_val]. unfold compared. cbn [obj_cmp_by of_res obind]. replace (c_strcmp powf t u =? 2) with false by lia. cbn [orb]. f_equal. f_equal.
  unfold same. destruct (list_eq_dec Z.eq_dec t u) as [N|N]; apply c_strcmp_zero in N || (assert (c_strcmp powf t u <> 0) by (intro; apply N, c_strcmp_zero; auto)); [rewrite N; reflexivity|]. destruct (c_strcmp powf t u =? 0) eqn:E; [lia|reflexivity].
Qed.
Lemma and_val x y : bin_val powf B_and x y = Done (of_bool (truthy x && truthy y)). Proof. reflexivity. Qed.
Lemma not_val x : un_val U_not x = Done (of_bool (negb (truthy x))). Proof. reflexivity. Qed.
Lemma eq_nil_str j u : bin_val powf B_eq ONil (OStr j u) = Done (of_bool true). Proof. reflexivity. Qed.
Lemma same_refl t : same t t = true. Proof. unfold same. destruct (list_eq_dec Z.eq_dec t t); congruence. Qed.
Lemma same_no t u : t <> u -> same t u = false. Proof. unfold same. destruct (list_eq_dec Z.eq_dec t u); congruence. Qed.
End Values.

Section States.
Context {X : Type}.
Notation sst := (sst X).
(** States that differ by new strings. *)
Lemma set_strs_id (st : sst) : set_strs st (s_str st) = st. Proof. destruct st; reflexivity. Qed.
Lemma set_strs_set (st : sst) a b : set_strs (set_strs st a) b = set_strs st b. Proof. reflexivity. Qed.
Lemma new_string_ok (st : sst) n t : room st n -> 1 <= n -> exists id sm, new_string st t = Done (OStr id t, set_strs st sm) /\ 0 <= id < 65536 /\ sm_get sm id = Some t /\ new_strings 1 st (set_strs st sm).
Proof.
  intros [H1 H2] Hn. unfold new_string. replace (sm_live (s_str st) <? 65534) with true by lia.
  destruct H1 as (ops & outs & A & B). assert (HG : good_strings (s_str st)) by (split; [exists ops, outs; auto|lia]).
  destruct (register_good _ t false HG) as (sm & id & E & Hi & Hg & HK & HO). rewrite E. exists id, sm. split; [reflexivity|]. split; [exact Hi|]. split; [exact Hg|].
  destruct (good_inv _ HG) as (M & HI & _). pose proof (register_live _ _ _ _ _ (si_wf1 _ _ HI) E). unfold new_strings, set_strs. cbn. do 3 (split; [reflexivity|]). split; [exact HK|]. split; [|lia].
  destruct HO as (o1 & o2 & P & Q). exists o1, o2. auto.
Qed.
Lemma new_strings_refl (st : sst) : strings_ok (s_str st) -> new_strings 0 st st. Proof. intro H. unfold new_strings. do 3 (split; [reflexivity|]). split; [intros i t _ Q; exact Q|]. split; [exact H|lia]. Qed.
Lemma new_strings_trans a b (x y z : sst) : new_strings a x y -> new_strings b y z -> new_strings (a + b) x z.
Proof.
  intros (A1 & A2 & A3 & A4 & A5 & A6) (B1 & B2 & B3 & B4 & B5 & B6). unfold new_strings. rewrite B1, B2, B3. do 3 (split; [assumption|]). split; [eapply keeps_strings_trans; eauto|]. split; [exact B5|lia].
Qed.
Lemma new_strings_le a b (x y : sst) : a <= b -> new_strings a x y -> new_strings b x y.
Proof. intros H (A1 & A2 & A3 & A4 & A5 & A6). repeat split; auto. lia. Qed.
Lemma room_after a n (x y : sst) : new_strings a x y -> room x n -> room y (n - a).
Proof. intros (A1 & A2 & A3 & A4 & A5 & A6) [B1 B2]. split; [exact A5|lia]. Qed.
(** string.length and string.sub. *)
Lemma length_ok i t (st : sst) : zlen t < 2 ^ 31 -> string_cfun 0 [ONil; OStr i t] st = Done (OInt (zlen t), st).
Proof. intro H. cbn [string_cfun]. replace (zlen t <? 2 ^ 31) with true by lia. reflexivity. Qed.
Lemma sub_ok i t a b n (st : sst) : room st n -> 1 <= n -> zlen t < 2 ^ 31 -> 0 <= a < zlen t -> a <= b ->
  exists id st', string_cfun 1 [ONil; OStr i t; OInt a; OInt b] st = Done (OStr id (part_of t a (Z.min b (zlen t))), st') /\ 0 <= id < 65536 /\ sm_get (s_str st') id = Some (part_of t a (Z.min b (zlen t))) /\ new_strings 1 st st'.
Proof.
  intros HR Hn HT Ha Hb. unfold string_cfun. replace ((2 ^ 31 <=? zlen t) || (a <? 0)) with false by lia. replace ((zlen t <=? a) || (b <? a)) with false by lia.
  destruct (new_string_ok st n (part_of t a (Z.min b (zlen t))) HR Hn) as (id & sm & E & Hi & Hg & HN). exists id, (set_strs st sm). auto.
Qed.
Lemma sub_end i t a b (st : sst) : zlen t < 2 ^ 31 -> 0 <= a -> zlen t <= a -> string_cfun 1 [ONil; OStr i t; OInt a; OInt b] st = Done (ONil, st).
Proof. intros HT Ha Hb. unfold string_cfun. replace ((2 ^ 31 <=? zlen t) || (a <? 0)) with false by lia. replace ((zlen t <=? a) || (b <? a)) with true by lia. reflexivity. Qed.
End States.

Section Exec.
Context {X : Type}.
Notation sst := (sst X).
Variable strtof : list Z -> option Z.
Variable powf : libm.
Variable sid : str -> Z.
Variable ref : Z -> Z.
Variable fns : list func.
Variable cfun : Z -> list obj -> sst -> out (obj * sst).
Notation at_most := (at_most strtof powf sid ref fns cfun).
Notation eval := (eval (X := X) strtof powf sid ref).
Notation exec := (exec (X := X) strtof powf sid ref).
Notation iterate := (iterate (X := X) strtof powf sid ref).

Lemma call_c n i cap vs st : call (at_most n) (OClos false i cap) vs st = cfun i (cap ++ vs) st. Proof. destruct n; reflexivity. Qed.
Lemma call_c_value n o m vs st : c_value cfun o m -> call (at_most n) o vs st = m vs st.
Proof. intros (i & self & -> & H). rewrite call_c. apply H. Qed.
Lemma call_fun n o f vs st : fun_value ref fns o f -> zlen vs = zlen (fst f) ->
  exists self, call (at_most (S n)) o vs st = obind (exec_all strtof powf sid ref (at_most n) (snd f) (combine (bs "self" :: fst f) (self :: vs)) st) (fun '(r, _, st) => Done (match r with Some v => v | None => ONil end, st)).
Proof.
  intros (r & self & fn & -> & HF & HV & HB) HL. exists self. cbn [Source.at_most call]. unfold apply. rewrite HF, HV, HB.
  assert (E : (zlen ([self] ++ vs) =? zlen (bs "self" :: fst f)) = true) by (apply Z.eqb_eq; unfold zlen in *; cbn [length app]; rewrite !Nat2Z.inj_succ; f_equal; exact HL).
  match goal with |- (if ?b then _ else _) = _ => replace b with true by (symmetry; exact E) end. reflexivity.
Qed.
Lemma eval_member k l st x n o : var_get l (bs x) = None -> member sid st x n o -> eval k (E_get (E_var (bs x)) (E_str (bs n))) l st = Done (o, st).
Proof. intros HL (a & H1 & H2). cbn [Source.eval obind]. unfold var_val. rewrite HL, H1, H2. reflexivity. Qed.
Lemma seq_step k s r l st l' st' : exec k s l st = Done (None, l', st') -> exec_all strtof powf sid ref k (Ss_cons s r) l st = exec_all strtof powf sid ref k r l' st'.
Proof. intro H. change (then_ (exec k s l st) (exec_all strtof powf sid ref k r) = exec_all strtof powf sid ref k r l' st'). unfold then_. rewrite H. reflexivity. Qed.
Lemma seq_ret k s r l st v l' st' : exec k s l st = Done (Some v, l', st') -> exec_all strtof powf sid ref k (Ss_cons s r) l st = Done (Some v, l', st').
Proof. intro H. change (then_ (exec k s l st) (exec_all strtof powf sid ref k r) = Done (Some v, l', st')). unfold then_. rewrite H. reflexivity. Qed.
Lemma while_iterate k c b l st : exec k (S_while c b) l st = iterate k c None b l st. Proof. reflexivity. Qed.

Lemma iterate_step k c b l st v st1 l2 st2 : eval k c l st = Done (v, st1) -> truthy v = true -> exec_all strtof powf sid ref k b l st1 = Done (None, l2, st2) -> iterate k c None (Block b) l st = again k c None (Block b) (firstn (length l) l2) st2.
Proof.
  intros H1 H2 H3. unfold iterate. rewrite H1. cbn [obind]. rewrite H2. change (exec_body strtof powf sid ref k (Block b) l st1) with (obind (exec_all strtof powf sid ref k b l st1) (fun '(r, l', st) => Done (r, firstn (length l) l', st))).
  rewrite H3. reflexivity.
Qed.
Lemma member_after a (x y : sst) t n o : new_strings a x y -> member sid x t n o -> member sid y t n o.
Proof. intros (A1 & A2 & _) (p & B1 & B2). exists p. unfold get_val in *. rewrite A1, A2. auto. Qed.
Lemma string_lib_after a (x y : sst) : new_strings a x y -> string_lib sid ref fns cfun x -> string_lib sid ref fns cfun y.
Proof. intros H [A B C D E F]. constructor; [destruct A as (o & P & Q)|destruct B as (o & P & Q)|destruct C as (o & P & Q)|destruct D as (o & P & Q)|destruct E as (o & P & Q)|destruct F as (o & P & Q)]; exists o; (split; [eapply member_after; eauto|exact Q]). Qed.
End Exec.

(** ** Tables as lists *)
Definition IK : obj -> bool := key_class false (fun _ => -1).
Record arr (t : table) (l : list obj) : Prop := {
  ar_built : built NeighborsVmSpec.int_key t;
  ar_size : zlen (pentries t) = zlen l;
  ar_get : forall k, int32_range k -> tab_get t (OInt k) = Ok (if 0 <=? k then nth_error l (Z.to_nat k) else None)
}.
Lemma int_key k : int32_range k -> IK (OInt k) = true. Proof. unfold int32_range, IK. cbn. unfold int32_rangeb. lia. Qed.
Lemma ar_wf t l : arr t l -> twf table_hash IK t.
Proof. intros [A _ _]. exact (built_twf _ _ _ (proj1 (int_built t) A)). Qed.
Lemma arr_list t l : arr t l -> zlen l <= 2 ^ 31 -> list_table t l.
Proof. intros [A B C] HL. split; [exact B|]. intros k Hk. rewrite C by (unfold int32_range; lia). replace (0 <=? k) with true by lia. reflexivity. Qed.
Lemma arr_new : arr tab_new [].
Proof.
  pose proof (good_class false (fun _ => -1)) as G. split; [exists []; split; [constructor|reflexivity]|reflexivity|]. intros k Hk. unfold tab_get. rewrite (rget_pget _ _ _ G) by (try apply twf_new with (E := same_key); auto; apply int_key; auto).
  unfold tab_new. rewrite (get_new _ _ _ (good_k _ _ _ G)) by lia. destruct (0 <=? k); [destruct (Z.to_nat k)|]; reflexivity.
Qed.
Lemma set_built t k x t' : built NeighborsVmSpec.int_key t -> int32_range k -> tab_set t (OInt k) x = Ok t' -> built NeighborsVmSpec.int_key t'.
Proof. intros A B E. destruct (int_set t k x A B) as (u & E2 & H & _). rewrite E in E2. inversion E2; subst u. exact H. Qed.
Lemma upd_nth_error {A} (l : list A) n x m : (n < length l)%nat -> nth_error (upd l n x) m = if Nat.eqb n m then Some x else nth_error l m.
Proof. revert n m. induction l as [|a l IH]; intros [|n] [|m] H; cbn in *; try lia; auto. apply IH. lia. Qed.
Lemma arr_set t l k x : arr t l -> 0 <= k < zlen l -> k < 2 ^ 31 -> exists t', tab_set t (OInt k) x = Ok t' /\ arr t' (upd l (Z.to_nat k) x).
Proof.
  intros HA Hk Hk2. pose proof (ar_wf _ _ HA) as A. destruct HA as [HBt B C]. pose proof (good_class false (fun _ => -1)) as G. assert (HK : IK (OInt k) = true) by (apply int_key; unfold int32_range; lia).
  destruct (tab_set_get _ _ _ G t (OInt k) x (OInt k) A HK HK) as (t' & E & W & _). exists t'. split; [exact E|]. split; [eapply set_built; [exact HBt| |exact E]; unfold int32_range in *; lia| |].
  - unfold zlen. rewrite upd_length. fold (zlen l). rewrite <- B. pose proof E as E2. rewrite (rset_pset _ _ _ G) in E2 by auto. inversion E2 as [E3]. clear E2.
    pose proof (size_set _ _ _ (good_k _ _ _ G) t (OInt k) x (proj1 (proj2 A))) as Hz. specialize (C k ltac:(unfold int32_range; lia)). unfold tab_get in C. rewrite (rget_pget _ _ _ G) in C by auto. inversion C as [C']. rewrite C' in Hz.
    replace (0 <=? k) with true in Hz by lia. destruct (nth_error l (Z.to_nat k)) eqn:EN; [rewrite Z.add_0_r in Hz; exact Hz|]. apply nth_error_None in EN. unfold zlen in Hk. lia.
  - intros j Hj. destruct (tab_set_get _ _ _ G t (OInt k) x (OInt j) A HK (int_key j Hj)) as (t2 & E2 & _ & r & Er & Er2). rewrite E in E2. inversion E2; subst t2. unfold tab_get. rewrite Er2. specialize (C j Hj). unfold tab_get in C. rewrite Er in C. inversion C; subst r. cbn [same_key].
    destruct (0 <=? j) eqn:EJ; [|replace (k =? j) with false by lia; reflexivity]. unfold zlen in Hk. rewrite upd_nth_error by lia. destruct (k =? j) eqn:EKJ; [replace (Nat.eqb _ _) with true by (symmetry; apply Nat.eqb_eq; lia); reflexivity|replace (Nat.eqb _ _) with false by (symmetry; apply Nat.eqb_neq; lia); reflexivity].
Qed.
Lemma arr_add t l x : arr t l -> zlen l < 2 ^ 31 -> exists t', tab_set t (OInt (zlen l)) x = Ok t' /\ arr t' (l ++ [x]).
Proof.
  intros HA Hk. pose proof (ar_wf _ _ HA) as A. destruct HA as [HBt B C]. pose proof (good_class false (fun _ => -1)) as G. assert (HR : int32_range (zlen l)) by (unfold int32_range, zlen in *; lia). pose proof (int_key _ HR) as HK.
  assert (HN : tab_get t (OInt (zlen l)) = Ok None). { rewrite C by auto. replace (0 <=? zlen l) with true by (unfold zlen; lia). f_equal. apply nth_error_None. unfold zlen. lia. }
  destruct (tab_set_get _ _ _ G t (OInt (zlen l)) x (OInt (zlen l)) A HK HK) as (t' & E & W & _). exists t'. split; [exact E|]. split; [eapply set_built; [exact HBt| |exact E]; unfold int32_range in *; lia| |].
  - rewrite (tab_set_size false (fun _ => -1) t (OInt (zlen l)) x t' A HK HN E), B. unfold zlen. rewrite app_length. cbn [length]. lia.
  - intros j Hj. destruct (tab_set_get _ _ _ G t (OInt (zlen l)) x (OInt j) A HK (int_key j Hj)) as (t2 & E2 & _ & r & Er & Er2). rewrite E in E2. inversion E2; subst t2. unfold tab_get. rewrite Er2. specialize (C j Hj). unfold tab_get in C. rewrite Er in C. inversion C; subst r. cbn [same_key].
    destruct (0 <=? j) eqn:EJ; [|replace (zlen l =? j) with false by (unfold zlen; lia); reflexivity]. unfold zlen. destruct (Z.of_nat (length l) =? j) eqn:EKJ.
    + rewrite nth_error_app2 by lia. replace (Z.to_nat j - length l)%nat with 0%nat by lia. reflexivity.
    + f_equal. destruct (Z_lt_le_dec j (zlen l)) as [H|H]; unfold zlen in H; [rewrite nth_error_app1 by lia; reflexivity|]. rewrite !(proj2 (nth_error_None _ _)); [reflexivity|rewrite app_length; cbn [length]; lia|lia].
Qed.

(** ** Room for given strings *)
Section Room.
Context {X : Type}.
Notation sst := (sst X).
Lemma rooms_all l sm : strings_ok sm -> sm_live sm + zlen l < 65534 -> rooms l sm.
Proof. intros A B. split; [exact A|]. exists l. auto. Qed.
Lemma new_string_in l (st : sst) t : rooms l (s_str st) -> In t l ->
  exists id sm, new_string st t = Done (OStr id t, set_strs st sm) /\ 0 <= id < 65536 /\ sm_get sm id = Some t /\ keeps_strings (s_str st) sm /\ rooms l sm.
Proof.
  intros [(ops & outs & A & B) (new & HN & HL)] Ht. assert (HG : good_strings (s_str st)) by (split; [exists ops, outs; auto|unfold zlen in HL; lia]).
  unfold new_string. replace (sm_live (s_str st) <? 65534) with true by (unfold zlen in HL; lia). destruct (register_good _ t false HG) as (sm & id & E & Hi & Hg & HK & HO). rewrite E. exists id, sm. split; [reflexivity|]. split; [exact Hi|]. split; [exact Hg|]. split; [exact HK|].
  split; [destruct HO as (o1 & o2 & P & Q); exists o1, o2; auto|]. destruct (good_inv _ HG) as (M & HI & HD).
  destruct (s2i_get (str2id (s_str st)) t) as [i|] eqn:ES.
  - exists new. split. { intros m Hm. destruct (HN m Hm) as [H|(j & Hj & H)]; [left; exact H|]. right. exists j. auto. }
    replace (sm_live sm) with (sm_live (s_str st)); [exact HL|]. unfold sm_register in E. rewrite ES in E. inversion E. reflexivity.
  - assert (Hnew : In t new).
    { destruct (HN t Ht) as [H|(j & Hj & H)]; [exact H|]. exfalso. unfold sm_get in H. destruct (i2s_get (id2str (s_str st)) j) as [[u q]|] eqn:E2; [|discriminate].
      inversion H; subst u. apply (si_i2s _ _ HI) in E2; auto. rewrite (si_s2i _ _ HI), E2 in ES. discriminate. }
    set (new' := remove (A := str) (list_eq_dec Z.eq_dec) t new). assert (HLt : zlen new' < zlen new) by (unfold zlen; apply inj_lt; exact (remove_length_lt (list_eq_dec Z.eq_dec) new t Hnew)). exists new'. pose proof (register_live _ _ _ _ _ (si_wf1 _ _ HI) E). split; [|lia].
    intros m Hm. destruct (list_eq_dec Z.eq_dec m t) as [->|Hne]; [right; exists id; auto|]. destruct (HN m Hm) as [H1|(j & Hj & H1)].
    + left. apply in_in_remove; auto.
    + right. exists j. auto.
Qed.
Lemma sub_in l i t a b (st : sst) : rooms l (s_str st) -> In (part_of t a b) l -> zlen t < 2 ^ 31 -> 0 <= a < zlen t -> a <= b <= zlen t ->
  exists id sm, string_cfun 1 [ONil; OStr i t; OInt a; OInt b] st = Done (OStr id (part_of t a b), set_strs st sm) /\ 0 <= id < 65536 /\ sm_get sm id = Some (part_of t a b) /\ keeps_strings (s_str st) sm /\ rooms l sm.
Proof.
  intros HR Hn HT Ha Hb. unfold string_cfun. replace ((2 ^ 31 <=? zlen t) || (a <? 0)) with false by lia. replace ((zlen t <=? a) || (b <? a)) with false by lia.
  rewrite Z.min_l by lia. apply new_string_in; auto.
Qed.
End Room.

Lemma call_mono {X} strtof powf sid ref fns (cfun : Z -> list obj -> sst X -> out (obj * sst X)) n f args st r : call (at_most strtof powf sid ref fns cfun n) f args st = Done r ->
  forall m, (n <= m)%nat -> call (at_most strtof powf sid ref fns cfun m) f args st = Done r.
Proof. intros H m Hm. destruct (at_most_mono strtof powf sid ref fns cfun n m Hm) as [HC _]. destruct (HC f args st) as [E|E]; congruence. Qed.

(** Names are compared, variables looked up. *)
Ltac names := repeat match goal with |- context [same ?a ?b] => let r := eval vm_compute in (same a b) in match r with true => change (same a b) with true | false => change (same a b) with false end end.
Ltac vars := unfold var_val; repeat (cbn [var_get var_set]; names; cbv iota).
