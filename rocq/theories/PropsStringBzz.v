(** The functions of string.bzz (C106-C108). *)
From Coq Require Import String.
From Verif Require Import Base ListLemmas Float Dict DictProofs PDict Strlib Parser Strman StrmanSpec StrmanProofs Obj ObjSpec ObjProofs Instr Vm VmProofs Text Lex LexSpec Asm AsmSpec WireProofs CFunSpec CFunProofs Source CompileSpec GcSpec HostSpec NeighborsVmSpec NeighborsVmProofs PropsNeighborsAdd PropsHost Load LibrarySpec StdSpec StdProofs PropsLibrary Register PropsCompile PropsScript
  Front FrontProofs StringBzz BzzExec.
Local Open Scope Z_scope.
Local Open Scope list_scope.

(** The file is what was read. *)
Example string_bzz_read : holds_script (fun _ => None) string_bzz_file [] string_bzz.
Proof. apply (script_of_ok _ _ 3000). vm_compute. reflexivity. Qed.

(** ** Parts of strings *)
Lemma zlen_app {A} (a b : list A) : zlen (a ++ b) = zlen a + zlen b. Proof. unfold zlen. rewrite app_length. lia. Qed.
Lemma part_occurs m s i : 0 <= i -> i + zlen m <= zlen s -> part_of s i (i + zlen m) = m <-> occurs_at m s i.
Proof.
  intros Hi Hl. unfold part_of. replace (i + zlen m - i) with (zlen m) by lia. unfold zlen in *. rewrite Nat2Z.id. split.
  - intro H. exists (firstn (Z.to_nat i) s), (skipn (length m) (skipn (Z.to_nat i) s)). split; [|unfold zlen; rewrite firstn_length; lia].
    rewrite <- H at 1. rewrite firstn_skipn, firstn_skipn. reflexivity.
  - intros (a & b & -> & H). unfold zlen in H. replace (Z.to_nat i) with (length a) by lia. rewrite skipn_app, skipn_all, Nat.sub_diag. cbn [app skipn]. rewrite firstn_app, firstn_all, Nat.sub_diag. cbn [firstn]. apply app_nil_r.
Qed.
Lemma occurs_range m s i : occurs_at m s i -> 0 <= i /\ i + zlen m <= zlen s.
Proof. intros (a & b & -> & <-). rewrite !zlen_app. unfold zlen. lia. Qed.

Lemma part_char (a : str) x (b : str) : part_of (a ++ x :: b) (zlen a) (zlen a + 1) = [x].
Proof. unfold part_of. replace (zlen a + 1 - zlen a) with 1 by lia. unfold zlen. rewrite Nat2Z.id, skipn_app, skipn_all, Nat.sub_diag. reflexivity. Qed.
Lemma same_char x y : same [x] [y] = (x =? y).
Proof. destruct (x =? y) eqn:E; [replace y with x by lia; apply same_refl|]. apply same_no. intro H. inversion H. lia. Qed.
Lemma part_grow (a : str) x b i : 0 <= i <= zlen a -> part_of (a ++ x :: b) i (zlen a + 1) = part_of (a ++ x :: b) i (zlen a) ++ [x].
Proof.
  intro H. unfold part_of, zlen in *. replace (Z.to_nat (Z.of_nat (length a) + 1 - i)) with (length (skipn (Z.to_nat i) a) + 1)%nat by (rewrite skipn_length; lia). replace (Z.to_nat (Z.of_nat (length a) - i)) with (length (skipn (Z.to_nat i) a)) by (rewrite skipn_length; lia).
  rewrite skipn_app. replace (Z.to_nat i - length a)%nat with 0%nat by lia. cbn [skipn]. rewrite firstn_app_2, firstn_app, firstn_all, Nat.sub_diag. cbn [firstn]. rewrite app_nil_r. reflexivity.
Qed.

Section Bzz.
Context {X : Type}.
Notation sst := (sst X).
Variable strtof : list Z -> option Z.
Variable powf : libm.
Variable sid : str -> Z.
Variable ref : Z -> Z.
Variable fns : list func.
Variable cfun : Z -> list obj -> sst -> out (obj * sst).
Notation at_most := (at_most strtof powf sid ref fns cfun).
Notation exec_all := (exec_all (X := X) strtof powf sid ref).
Notation exec := (exec (X := X) strtof powf sid ref).
Notation iterate := (iterate (X := X) strtof powf sid ref).
Notation string_lib := (string_lib sid ref fns cfun).

Ltac ev := cbn [Source.exec_all Source.exec Source.exec_body Source.eval evals then_ obind fst snd app].
Ltac enter := change (bs "self") with [115; 101; 108; 102]; cbn [combine fst snd].
Ltac get_member H o C := let a := fresh "a" in let G := fresh "G" in let T := fresh "T" in
  destruct H as (o & (a & G & T) & C); vm_compute (bs "string") in G; match type of T with context [bs ?n] => let x := eval vm_compute in (bs n) in change (bs n) with x in T end.

(** *** charat *)
Lemma charat_ok n o i t k (st : sst) q : string_lib st -> fun_value ref fns o charat_fun -> room st q -> 1 <= q -> zlen t < 2 ^ 31 - 1 -> 0 <= k < zlen t ->
  exists id st', call (at_most (S n)) o [OStr i t; OInt k] st = Done (OStr id (part_of t k (k + 1)), st') /\ 0 <= id < 65536 /\ sm_get (s_str st') id = Some (part_of t k (k + 1)) /\ new_strings 1 st st'.
Proof.
  intros HL HF HR Hq HT Hk. destruct (call_fun strtof powf sid ref fns cfun n o _ [OStr i t; OInt k] st HF eq_refl) as (self & ->).
  get_member (sl_sub _ _ _ _ _ HL) os CS. unfold charat_fun. enter. ev. vars. rewrite G. ev. rewrite T. ev. change (num_val strtof [49]) with (OInt 1). rewrite add_ints by (unfold int32_range; lia). ev.
  rewrite (call_c_value _ _ _ _ _ _ _ _ _ _ _ CS). destruct (sub_ok i t k (k + 1) q st HR Hq ltac:(lia) ltac:(lia) ltac:(lia)) as (id & st' & E & Hi & Hg & HN). rewrite E. ev.
  exists id, st'. rewrite Z.min_l in * by lia. auto.
Qed.

(** *** indexoffirst *)
Definition first_while : expr * body :=
  Eval vm_compute in match snd indexoffirst_fun with Ss_cons _ (Ss_cons _ (Ss_cons _ (Ss_cons (S_while c b) _))) => (c, b) | _ => (E_nil, Block Ss_nil) end.
Definition first_vars self si s mi m k : locals :=
  [([115; 101; 108; 102], self); ([115], OStr si s); ([109], OStr mi m); ([108; 115], OInt (zlen s)); ([108; 109], OInt (zlen m)); ([105], OInt k)].
Lemma first_loop (Hnt : forall a b, c_strcmp powf a b <> 2) self si s mi m : 0 < zlen m -> zlen s < 2 ^ 31 - 1 -> zlen m < 2 ^ 31 ->
  forall d k n (st : sst), string_lib st -> room st (Z.of_nat d) -> 0 <= k -> k + Z.of_nat d = Z.max k (zlen s - zlen m + 1) -> (d <= n)%nat -> (forall q, q < k -> ~ occurs_at m s q) ->
  exists r l' st', iterate (at_most n) (fst first_while) None (snd first_while) (first_vars self si s mi m k) st = Done (r, l', st') /\ new_strings (Z.of_nat d) st st' /\
    match r with
    | Some (OInt p) => occurs_at m s p /\ forall q, q < p -> ~ occurs_at m s q
    | None => forall q, ~ occurs_at m s q
    | _ => False
    end.
Proof.
  intros Hm Hs Hm2. induction d as [|d IH]; intros k n st HL HR Hk Hd Hn HQ.
  - unfold iterate, first_while, first_vars. cbn [fst snd]. ev. vars. rewrite sub_ints by (unfold int32_range; unfold zlen in *; lia). ev. change (num_val strtof [49]) with (OInt 1). rewrite add_ints by (unfold int32_range; unfold zlen in *; lia). ev.
    rewrite lt_ints. ev. rewrite truthy_bool. replace (k <? zlen s - zlen m + 1) with false by lia. eexists None, _, st. split; [reflexivity|]. split; [apply new_strings_refl, HR|]. intros q Hq. destruct (occurs_range _ _ _ Hq). apply (HQ q); [lia|exact Hq].
  - unfold iterate, first_while, first_vars. cbn [fst snd]. ev. vars. rewrite sub_ints by (unfold int32_range; unfold zlen in *; lia). ev. change (num_val strtof [49]) with (OInt 1). rewrite add_ints by (unfold int32_range; unfold zlen in *; lia). ev.
    rewrite lt_ints. ev. rewrite truthy_bool. replace (k <? zlen s - zlen m + 1) with true by lia.
    get_member (sl_sub _ _ _ _ _ HL) os CS. ev. vars. rewrite G. ev. rewrite T. ev. rewrite add_ints by (unfold int32_range; lia). ev. rewrite (call_c_value _ _ _ _ _ _ _ _ _ _ _ CS).
    destruct (sub_ok si s k (k + zlen m) (Z.of_nat (S d)) st HR ltac:(lia) ltac:(lia) ltac:(lia) ltac:(lia)) as (id & st1 & E & Hi & Hg & HN). rewrite E. ev. vars. rewrite eq_strs by apply Hnt. ev. rewrite truthy_bool. rewrite Z.min_l by lia.
    destruct (same (part_of s k (k + zlen m)) m) eqn:ES.
    + apply GenStep.same_true in ES. apply part_occurs in ES; [|lia|lia]. ev. eexists (Some (OInt k)), _, st1. split; [reflexivity|]. split; [eapply new_strings_le; [|exact HN]; lia|]. auto.
    + ev. vars. change (num_val strtof [49]) with (OInt 1). rewrite add_ints by (unfold int32_range; lia). ev. unfold assign. vars. ev. cbn [firstn length]. 
      destruct n as [|n]; [lia|]. cbn [Source.at_most again].
      assert (HO : ~ occurs_at m s k). { intro O. apply part_occurs in O; [|lia|lia]. rewrite O, same_refl in ES. discriminate. }
      destruct (IH (k + 1) n st1) as (r & l' & st' & E2 & HN2 & HR2).
      * eapply string_lib_after; eauto. * pose proof (room_after _ _ _ _ HN HR). replace (Z.of_nat d) with (Z.of_nat (S d) - 1) by lia. auto. * lia. * lia. * lia.
      * intros q Hq. destruct (Z.eq_dec q k) as [->|]; [exact HO|]. apply HQ. lia.
      * exists r, l', st'. split; [exact E2|]. split; [|exact HR2]. eapply new_strings_le; [|eapply new_strings_trans; eauto]. lia.
Qed.

Lemma first_ok (Hnt : forall a b, c_strcmp powf a b <> 2) f si s mi m (st : sst) : string_lib st -> fun_value ref fns f indexoffirst_fun -> zlen s < 2 ^ 31 - 1 -> zlen m < 2 ^ 31 -> room st (zlen s + 1) ->
  exists r st', returns sid ref fns cfun strtof powf f [OStr si s; OStr mi m] st r st' /\ new_strings (zlen s + 1) st st' /\
    match r with
    | OInt p => occurs_at m s p /\ forall q, q < p -> ~ occurs_at m s q
    | ONil => forall q, ~ occurs_at m s q
    | _ => False
    end.
Proof.
  intros HL HF Hs Hm HR. pose proof (fun n => call_fun strtof powf sid ref fns cfun n f _ [OStr si s; OStr mi m] st HF eq_refl) as HC.
  assert (H : exists r st' n, call (at_most n) f [OStr si s; OStr mi m] st = Done (r, st') /\ new_strings (zlen s + 1) st st' /\
    match r with OInt p => occurs_at m s p /\ forall q, q < p -> ~ occurs_at m s q | ONil => forall q, ~ occurs_at m s q | _ => False end).
  { get_member (sl_length _ _ _ _ _ HL) ol CL. set (N := Z.to_nat (zlen s + 1)). destruct (HC N) as (self & HC'). clear HC.
    unfold indexoffirst_fun in HC'. change (bs "self") with [115; 101; 108; 102] in HC'. cbn [combine fst snd] in HC'.
    erewrite seq_step in HC' by (ev; cbn [is_top]; ev; vars; rewrite G; ev; rewrite T; ev; rewrite (call_c_value _ _ _ _ _ _ _ _ _ _ _ CL), length_ok by lia; ev; vars; reflexivity).
    erewrite seq_step in HC' by (ev; cbn [is_top]; ev; vars; rewrite G; ev; rewrite T; ev; rewrite (call_c_value _ _ _ _ _ _ _ _ _ _ _ CL), length_ok by lia; ev; vars; reflexivity).
    erewrite seq_step in HC' by (ev; cbn [is_top]; ev; change (num_val strtof [48]) with (OInt 0); vars; reflexivity).
    destruct (Z.eq_dec (zlen m) 0) as [E0|E0].
    - assert (m = []) by (destruct m; [reflexivity|unfold zlen in E0; cbn [length] in E0; lia]). subst m. change (zlen []) with 0 in *.
      assert (HQ : occurs_at [] s 0 /\ forall q, q < 0 -> ~ occurs_at [] s q). { split; [exists [], s; split; reflexivity|]. intros q Hq HO. apply occurs_range in HO. lia. }
      get_member (sl_sub _ _ _ _ _ HL) os CS.
      assert (HS : exists r st', string_cfun 1 [ONil; OStr si s; OInt 0; OInt 0] st = Done (r, st') /\ bin_val powf B_eq r (OStr mi []) = Done (of_bool true) /\ new_strings (zlen s + 1) st st').
      { destruct (Z.eq_dec (zlen s) 0) as [Es|Es].
        - rewrite sub_end by lia. exists ONil, st. split; [reflexivity|]. split; [reflexivity|]. eapply new_strings_le; [|apply new_strings_refl, HR]. unfold zlen. lia.
        - destruct (sub_ok si s 0 0 (zlen s + 1) st HR) as (id & st' & E & Hi & Hg & HN); try (unfold zlen in *; lia). rewrite Z.min_l in * by (unfold zlen; lia). rewrite E. exists (OStr id (part_of s 0 0)), st'. split; [reflexivity|]. split; [rewrite eq_strs by apply Hnt; reflexivity|]. eapply new_strings_le; [|exact HN]. unfold zlen. lia. }
      destruct HS as (r & st' & E & EQ & HN). exists (OInt 0), st', (S N). split; [|auto]. rewrite HC'. erewrite seq_ret; [reflexivity|]. rewrite while_iterate. unfold iterate. ev. vars. rewrite sub_ints by (unfold int32_range; unfold zlen in *; lia). ev. change (num_val strtof [49]) with (OInt 1). rewrite add_ints by (unfold int32_range; unfold zlen in *; lia). ev.
      rewrite lt_ints. ev. rewrite truthy_bool. replace (0 <? zlen s - 0 + 1) with true by (unfold zlen; lia). ev. vars. rewrite G0. ev. rewrite T0. ev. rewrite add_ints by (unfold int32_range; lia). ev. rewrite (call_c_value _ _ _ _ _ _ _ _ _ _ _ CS). change (0 + 0) with 0. rewrite E. ev. vars. rewrite EQ. ev. reflexivity.
    - destruct (first_loop Hnt self si s mi m ltac:(unfold zlen in *; lia) Hs Hm (Z.to_nat (Z.max 0 (zlen s - zlen m + 1))) 0 N st HL) as (r & l' & st' & E & HN & HQ).
      + destruct HR as [P Q]. split; [exact P|]. unfold zlen in *. lia.
      + lia. + lia. + unfold N, zlen. lia.
      + intros q Hq HO. apply occurs_range in HO. lia.
      + assert (HN' : new_strings (zlen s + 1) st st') by (eapply new_strings_le; [|exact HN]; unfold zlen; lia).
        destruct r as [r|].
        * exists r, st', (S N). rewrite HC'. erewrite seq_ret by (rewrite while_iterate; exact E). split; [reflexivity|]. split; [exact HN'|]. destruct r; auto; contradiction.
        * exists ONil, st', (S N). rewrite HC'. erewrite seq_step by (rewrite while_iterate; exact E). ev. auto. }
  destruct H as (r & st' & n & E & H). exists r, st'. split; [|exact H]. exists n. intros k Hk. eapply call_mono; eauto.
Qed.

(** With a strcmp that gives 2 for [s] and [m]. *)
Lemma first_wrong f si s mi m (st : sst) : string_lib st -> fun_value ref fns f indexoffirst_fun -> 0 < zlen m < 2 ^ 31 - 1 -> zlen s = zlen m -> c_strcmp powf s m = 2 -> room st 1 ->
  exists st', returns sid ref fns cfun strtof powf f [OStr si s; OStr mi m] st (OInt 0) st' /\ new_strings 1 st st'.
Proof.
  intros HL HF Hm Hs H2 HR. get_member (sl_length _ _ _ _ _ HL) ol CL. destruct (call_fun strtof powf sid ref fns cfun 0 f _ [OStr si s; OStr mi m] st HF eq_refl) as (self & HC').
  unfold indexoffirst_fun in HC'. change (bs "self") with [115; 101; 108; 102] in HC'. cbn [combine fst snd] in HC'.
  erewrite seq_step in HC' by (ev; cbn [is_top]; ev; vars; rewrite G; ev; rewrite T; ev; rewrite (call_c_value _ _ _ _ _ _ _ _ _ _ _ CL), length_ok by lia; ev; vars; reflexivity).
  erewrite seq_step in HC' by (ev; cbn [is_top]; ev; vars; rewrite G; ev; rewrite T; ev; rewrite (call_c_value _ _ _ _ _ _ _ _ _ _ _ CL), length_ok by lia; ev; vars; reflexivity).
  erewrite seq_step in HC' by (ev; cbn [is_top]; ev; change (num_val strtof [48]) with (OInt 0); vars; reflexivity).
  get_member (sl_sub _ _ _ _ _ HL) os CS.
  destruct (sub_ok si s 0 (0 + zlen m) 1 st HR ltac:(lia) ltac:(lia) ltac:(lia) ltac:(lia)) as (id & st1 & E & Hi & Hg & HN).
  assert (EP : part_of s 0 (Z.min (0 + zlen m) (zlen s)) = s). { rewrite Z.min_l, <- Hs by lia. apply part_occurs; [lia|lia|]. exists [], []. split; [rewrite app_nil_r; reflexivity|reflexivity]. }
  exists st1. split; [|exact HN]. exists 1%nat. intros k Hk. eapply call_mono; [|exact Hk]. rewrite HC'. erewrite seq_ret; [reflexivity|].
  rewrite while_iterate. unfold iterate. ev. vars. rewrite sub_ints by (unfold int32_range; lia). ev. change (num_val strtof [49]) with (OInt 1). rewrite add_ints by (unfold int32_range; lia). ev.
  rewrite lt_ints. ev. rewrite truthy_bool. replace (0 <? zlen s - zlen m + 1) with true by lia. ev. vars. rewrite G0. ev. rewrite T0. ev. rewrite add_ints by (unfold int32_range; lia). ev. rewrite (call_c_value _ _ _ _ _ _ _ _ _ _ _ CS).
  rewrite E. ev. vars. rewrite EP. cbn [bin_val]. unfold compared. cbn [obj_cmp_by of_res obind]. rewrite H2. ev. reflexivity.
Qed.

(** *** indexoflast *)
Definition last_while : expr * body :=
  Eval vm_compute in match snd indexoflast_fun with Ss_cons _ (Ss_cons _ (Ss_cons _ (Ss_cons (S_while c b) _))) => (c, b) | _ => (E_nil, Block Ss_nil) end.
Lemma zlen_part s a b : 0 <= a <= b -> b <= zlen s -> zlen (part_of s a b) = b - a.
Proof. intros H1 H2. unfold part_of, zlen in *. rewrite firstn_length, skipn_length. lia. Qed.
Lemma last_loop (Hnt : forall a b, c_strcmp powf a b <> 2) self si s mi m : 1 < zlen m -> zlen s < 2 ^ 31 - 1 -> zlen m < 2 ^ 31 ->
  forall d k n (st : sst), string_lib st -> room st (Z.of_nat d) -> k <= zlen s - zlen m + 1 -> - 2 ^ 31 < k -> Z.of_nat d = Z.max 0 (k + 1) -> (d <= n)%nat -> (forall q, k < q -> ~ occurs_at m s q) ->
  exists r l' st', iterate (at_most n) (fst last_while) None (snd last_while) (first_vars self si s mi m k) st = Done (r, l', st') /\ new_strings (Z.of_nat d) st st' /\
    match r with
    | Some (OInt p) => occurs_at m s p /\ forall q, p < q -> ~ occurs_at m s q
    | None => forall q, ~ occurs_at m s q
    | _ => False
    end.
Proof.
  intros Hm Hs Hm2. induction d as [|d IH]; intros k n st HL HR Hk Hkl Hd Hn HQ.
  - unfold iterate, last_while, first_vars. cbn [fst snd]. ev. vars. change (num_val strtof [48]) with (OInt 0). rewrite gte_ints. ev. rewrite truthy_bool. replace (k >=? 0) with false by lia. eexists None, _, st. split; [reflexivity|]. split; [apply new_strings_refl, HR|]. intros q Hq. destruct (occurs_range _ _ _ Hq). apply (HQ q); [lia|exact Hq].
  - unfold iterate, last_while, first_vars. cbn [fst snd]. ev. vars. change (num_val strtof [48]) with (OInt 0). rewrite gte_ints. ev. rewrite truthy_bool. replace (k >=? 0) with true by lia.
    get_member (sl_sub _ _ _ _ _ HL) os CS. ev. vars. rewrite G. ev. rewrite T. ev. rewrite add_ints by (unfold int32_range; lia). ev. rewrite (call_c_value _ _ _ _ _ _ _ _ _ _ _ CS).
    destruct (sub_ok si s k (k + zlen m) (Z.of_nat (S d)) st HR ltac:(lia) ltac:(lia) ltac:(lia) ltac:(lia)) as (id & st1 & E & Hi & Hg & HN). rewrite E. ev. vars. rewrite eq_strs by apply Hnt. ev. rewrite truthy_bool.
    destruct (same (part_of s k (Z.min (k + zlen m) (zlen s))) m) eqn:ES.
    + apply GenStep.same_true in ES. assert (HB : k + zlen m <= zlen s). { pose proof (zlen_part s k (Z.min (k + zlen m) (zlen s)) ltac:(lia) ltac:(lia)) as HZ. rewrite ES in HZ. lia. }
      rewrite Z.min_l in ES by lia. apply part_occurs in ES; [|lia|lia]. ev. eexists (Some (OInt k)), _, st1. split; [reflexivity|]. split; [eapply new_strings_le; [|exact HN]; lia|]. auto.
    + ev. vars. change (num_val strtof [49]) with (OInt 1). rewrite sub_ints by (unfold int32_range; lia). ev. unfold assign. vars. ev. cbn [firstn length].
      destruct n as [|n]; [lia|]. cbn [Source.at_most again].
      assert (HO : ~ occurs_at m s k). { intro O. pose proof (occurs_range _ _ _ O). rewrite Z.min_l in ES by lia. apply part_occurs in O; [|lia|lia]. rewrite O, same_refl in ES. discriminate. }
      destruct (IH (k - 1) n st1) as (r & l' & st' & E2 & HN2 & HR2).
      * eapply string_lib_after; eauto. * pose proof (room_after _ _ _ _ HN HR). replace (Z.of_nat d) with (Z.of_nat (S d) - 1) by lia. auto. * lia. * lia. * lia. * lia.
      * intros q Hq. destruct (Z.eq_dec q k) as [->|]; [exact HO|]. apply HQ. lia.
      * exists r, l', st'. split; [exact E2|]. split; [|exact HR2]. eapply new_strings_le; [|eapply new_strings_trans; eauto]. lia.
Qed.
(** The beginning of indexoflast. *)
Lemma last_begin N f si s mi m (st : sst) : string_lib st -> fun_value ref fns f indexoflast_fun -> zlen s < 2 ^ 31 - 1 -> zlen m < 2 ^ 31 ->
  exists self, call (at_most (S N)) f [OStr si s; OStr mi m] st = obind (exec_all (at_most N) (Ss_cons (S_while (fst last_while) (snd last_while)) (Ss_cons (S_returnval E_nil) Ss_nil)) (first_vars self si s mi m (zlen s - zlen m + 1)) st)
    (fun '(r, _, st) => Done (match r with Some v => v | None => ONil end, st)).
Proof.
  intros HL HF Hs Hm. destruct (call_fun strtof powf sid ref fns cfun N f _ [OStr si s; OStr mi m] st HF eq_refl) as (self & HC'). exists self. rewrite HC'.
  get_member (sl_length _ _ _ _ _ HL) ol CL. unfold indexoflast_fun. change (bs "self") with [115; 101; 108; 102]. cbn [combine fst snd].
  erewrite seq_step by (ev; cbn [is_top]; ev; vars; rewrite G; ev; rewrite T; ev; rewrite (call_c_value _ _ _ _ _ _ _ _ _ _ _ CL), length_ok by lia; ev; vars; reflexivity).
  erewrite seq_step by (ev; cbn [is_top]; ev; vars; rewrite G; ev; rewrite T; ev; rewrite (call_c_value _ _ _ _ _ _ _ _ _ _ _ CL), length_ok by lia; ev; vars; reflexivity).
  erewrite seq_step by (ev; cbn [is_top]; ev; vars; rewrite sub_ints by (unfold int32_range; unfold zlen in *; lia); ev; change (num_val strtof [49]) with (OInt 1); rewrite add_ints by (unfold int32_range; unfold zlen in *; lia); ev; vars; reflexivity).
  reflexivity.
Qed.
Lemma last_ok (Hnt : forall a b, c_strcmp powf a b <> 2) f si s mi m (st : sst) : string_lib st -> fun_value ref fns f indexoflast_fun -> zlen s < 2 ^ 31 - 1 -> 1 < zlen m < 2 ^ 31 -> room st (zlen s + 1) ->
  exists r st', returns sid ref fns cfun strtof powf f [OStr si s; OStr mi m] st r st' /\ new_strings (zlen s + 1) st st' /\
    match r with
    | OInt p => occurs_at m s p /\ forall q, p < q -> ~ occurs_at m s q
    | ONil => forall q, ~ occurs_at m s q
    | _ => False
    end.
Proof.
  intros HL HF Hs Hm HR. set (N := Z.to_nat (zlen s + 1)). destruct (last_begin N f si s mi m st HL HF Hs ltac:(lia)) as (self & HC).
  destruct (last_loop Hnt self si s mi m ltac:(lia) Hs ltac:(lia) (Z.to_nat (Z.max 0 (zlen s - zlen m + 1 + 1))) (zlen s - zlen m + 1) N st HL) as (r & l' & st' & E & HN & HQ).
  - destruct HR as [P Q]. split; [exact P|]. unfold zlen in *. lia.
  - lia. - unfold zlen in *. lia. - lia. - unfold N, zlen in *. lia.
  - intros q Hq HO. apply occurs_range in HO. lia.
  - assert (HN' : new_strings (zlen s + 1) st st') by (eapply new_strings_le; [|exact HN]; unfold zlen in *; lia).
    assert (H : exists r', call (at_most (S N)) f [OStr si s; OStr mi m] st = Done (r', st') /\ match r' with OInt p => occurs_at m s p /\ forall q, p < q -> ~ occurs_at m s q | ONil => forall q, ~ occurs_at m s q | _ => False end).
    { destruct r as [r|].
      - exists r. rewrite HC. erewrite seq_ret by (rewrite while_iterate; exact E). split; [reflexivity|]. destruct r; auto; contradiction.
      - exists ONil. rewrite HC. erewrite seq_step by (rewrite while_iterate; exact E). ev. auto. }
    destruct H as (r' & EC & HQ'). exists r', st'. split; [|auto]. exists (S N). intros k Hk. eapply call_mono; eauto.
Qed.
Lemma last_wrong f si s mi m (st : sst) : string_lib st -> fun_value ref fns f indexoflast_fun -> zlen s < 2 ^ 31 - 1 -> zlen m <= 1 ->
  returns sid ref fns cfun strtof powf f [OStr si s; OStr mi m] st (OInt (zlen s - zlen m + 1)) st /\ ~ occurs_at m s (zlen s - zlen m + 1).
Proof.
  intros HL HF Hs Hm. split; [|intro O; apply occurs_range in O; lia]. destruct (last_begin 0 f si s mi m st HL HF Hs ltac:(lia)) as (self & HC).
  exists 1%nat. intros n Hn. eapply call_mono; [|exact Hn]. rewrite HC. erewrite seq_ret; [reflexivity|]. rewrite while_iterate. unfold iterate, last_while, first_vars. cbn [fst snd]. ev. vars. change (num_val strtof [48]) with (OInt 0). rewrite gte_ints. ev. rewrite truthy_bool. replace (_ >=? 0) with true by (unfold zlen in *; lia).
  get_member (sl_sub _ _ _ _ _ HL) os CS. ev. vars. rewrite G. ev. rewrite T. ev. rewrite add_ints by (unfold int32_range; unfold zlen in *; lia). ev. rewrite (call_c_value _ _ _ _ _ _ _ _ _ _ _ CS). rewrite sub_end by (unfold zlen in *; lia). ev. vars. rewrite eq_nil_str. ev. reflexivity.
Qed.

(** *** split *)
Definition piece (w : str) : list str := match w with [] => [] | _ => [w] end.
Lemma part_piece s i1 i2 : 0 <= i1 <= i2 -> i2 <= zlen s -> piece (part_of s i1 i2) = if i1 <? i2 then [part_of s i1 i2] else [].
Proof. intros H1 H2. pose proof (zlen_part s i1 i2 H1 H2) as HZ. destruct (i1 <? i2) eqn:E; destruct (part_of s i1 i2); try reflexivity; unfold zlen in HZ; cbn [length] in HZ; lia. Qed.
Definition split_last : stat := Eval vm_compute in match snd split_fun with Ss_cons _ (Ss_cons _ (Ss_cons _ (Ss_cons _ (Ss_cons _ (Ss_cons _ (Ss_cons _ (Ss_cons s _))))))) => s | _ => S_return end.
Section Split.
Variable st0 : sst.
Hypothesis HL0 : string_lib st0.
(** The states of a call of split: the table [tb] was made, strings were registered. *)
Definition at_split tb sm : sst := mkSt (s_glob st0) (s_heap st0 ++ [tb]) sm (s_ext st0).
Lemma member_split tb sm x n o : member sid st0 x n o -> member sid (at_split tb sm) x n o.
Proof.
  intros (a & G & T). exists a. split; [exact G|]. unfold get_val in *. destruct (is_key _); [|exact T]. unfold table_at in *. cbn [s_heap at_split].
  destruct (0 <=? a); [|exact T]. destruct (nth_error (s_heap st0) (Z.to_nat a)) eqn:E; [|discriminate]. rewrite nth_error_app1 by (apply nth_error_Some; congruence). rewrite E. exact T.
Qed.
Lemma lib_split tb sm : string_lib (at_split tb sm).
Proof. destruct HL0 as [A B C D E F]. constructor; [destruct A as (o & P & Q)|destruct B as (o & P & Q)|destruct C as (o & P & Q)|destruct D as (o & P & Q)|destruct E as (o & P & Q)|destruct F as (o & P & Q)]; exists o; (split; [apply member_split; exact P|exact Q]). Qed.
Lemma put_split tb sm k i t tb' : tab_set tb (OInt k) (OStr i t) = Ok tb' -> put_val (at_split tb sm) (OTab (zlen (s_heap st0))) (OInt k) (OStr i t) = Done (at_split tb' sm).
Proof.
  intro H. cbn [put_val is_key bind_self]. unfold table_at. cbn [s_heap at_split]. replace (0 <=? zlen (s_heap st0)) with true by (unfold zlen; lia). unfold zlen. rewrite Nat2Z.id, nth_error_app2, Nat.sub_diag by lia. cbn [nth_error obind]. rewrite H. cbn [of_res obind]. unfold set_tabs. cbn. rewrite upd_snoc. reflexivity.
Qed.
Lemma charat_in R n o i t k tb sm : fun_value ref fns o charat_fun -> rooms R sm -> In (part_of t k (k + 1)) R -> zlen t < 2 ^ 31 - 1 -> 0 <= k < zlen t ->
  exists id sm', call (at_most (S n)) o [OStr i t; OInt k] (at_split tb sm) = Done (OStr id (part_of t k (k + 1)), at_split tb sm') /\ keeps_strings sm sm' /\ rooms R sm'.
Proof.
  intros HF HR Hq HT Hk. destruct (call_fun strtof powf sid ref fns cfun n o _ [OStr i t; OInt k] (at_split tb sm) HF eq_refl) as (self & ->).
  get_member (sl_sub _ _ _ _ _ (lib_split tb sm)) os CS. unfold charat_fun. enter. ev. vars. rewrite G. ev. rewrite T. ev. change (num_val strtof [49]) with (OInt 1). rewrite add_ints by (unfold int32_range; lia). ev.
  rewrite (call_c_value _ _ _ _ _ _ _ _ _ _ _ CS). destruct (sub_in R i t k (k + 1) (at_split tb sm) HR Hq ltac:(lia) ltac:(lia) ltac:(lia)) as (id & sm' & E & Hi & Hg & HK & HR'). rewrite E. ev.
  exists id, sm'. auto.
Qed.
Definition outer_while : expr * body :=
  Eval vm_compute in match snd split_fun with Ss_cons _ (Ss_cons _ (Ss_cons _ (Ss_cons _ (Ss_cons _ (Ss_cons _ (Ss_cons (S_while c b) _)))))) => (c, b) | _ => (E_nil, Block Ss_nil) end.
Definition inner_while : expr * body :=
  Eval vm_compute in match snd outer_while with Block (Ss_cons _ (Ss_cons _ (Ss_cons (S_while c b) _))) => (c, b) | _ => (E_nil, Block Ss_nil) end.
Hypothesis Hnt : forall a b, c_strcmp powf a b <> 2.
Variables (self : obj) (si : Z) (s : str) (di : Z) (d : str).
Hypothesis Hs : zlen s < 2 ^ 31 - 1.
Hypothesis Hd : zlen d < 2 ^ 31 - 1.
Definition split_vars i1 i2 c rest : locals :=
  ([115; 101; 108; 102], self) :: ([115], OStr si s) :: ([100], OStr di d) :: ([105; 49], OInt i1) :: ([105; 50], OInt i2) :: ([99], OInt c) :: ([116], OTab (zlen (s_heap st0))) :: ([108; 115], OInt (zlen s)) :: ([108; 100], OInt (zlen d)) :: rest.
Variable R : list str.
Hypothesis Rs : forall x, In x s -> In [x] R.
Hypothesis Rd : forall x, In x d -> In [x] R.
(** The inner loop. *)
Lemma inner_loop s1 x s2 i1 i2 : s = s1 ++ x :: s2 -> i2 = zlen s1 -> 0 <= i1 <= i2 -> forall d2 d1 n tb sm L, d = d1 ++ d2 -> (length d2 < n)%nat -> arr tb L -> zlen L <= i2 -> rooms R sm ->
  (existsb (Z.eqb x) d2 = true -> i1 < i2 -> In (part_of s i1 i2) R) ->
  exists l' tb' sm', iterate (at_most n) (fst inner_while) None (snd inner_while) (split_vars i1 i2 (zlen L) [([106], OInt (zlen d1)); ([102], ONil)]) (at_split tb sm) = Done (None, l', at_split tb' sm') /\
    (exists j f, if existsb (Z.eqb x) d2
     then l' = split_vars (i2 + 1) i2 (if i1 <? i2 then zlen L + 1 else zlen L) [([106], j); ([102], f)] /\ (if i1 <? i2 then exists o, is_string sm' (part_of s i1 i2) o /\ arr tb' (L ++ [o]) else tb' = tb)
     else l' = split_vars i1 i2 (zlen L) [([106], j); ([102], f)] /\ tb' = tb) /\
    keeps_strings sm sm' /\ rooms R sm'.
Proof.
  intros Es Ei Hi. assert (HLs : zlen s = zlen s1 + 1 + zlen s2) by (rewrite Es, zlen_app; unfold zlen; cbn [length]; lia).
  induction d2 as [|y d2 IH]; intros d1 n tb sm L Ed Hn HA HL HR HP.
  - cbn [existsb]. unfold iterate, inner_while, split_vars. cbn [fst snd]. ev. vars. rewrite lt_ints. ev. rewrite not_val. ev. rewrite and_val. ev. rewrite !truthy_bool.
    replace (zlen d1 <? zlen d) with false by (rewrite Ed, app_nil_r; lia). eexists _, tb, sm. split; [reflexivity|]. split; [eexists _, _; split; reflexivity|]. split; [intros i t _ Q; exact Q|exact HR].
  - destruct n as [|n]; [cbn [length] in Hn; lia|]. assert (HLd : zlen d = zlen d1 + 1 + zlen d2) by (rewrite Ed, zlen_app; unfold zlen; cbn [length]; lia).
    assert (P1 : 0 <= zlen d1) by (unfold zlen; lia). assert (P2 : 0 <= zlen d2) by (unfold zlen; lia). assert (P3 : 0 <= zlen s1) by (unfold zlen; lia). assert (P4 : 0 <= zlen s2) by (unfold zlen; lia). assert (P5 : 0 <= zlen L) by (unfold zlen; lia).
    get_member (sl_charat _ _ _ _ _ (lib_split tb sm)) oc CC.
    destruct (charat_in R n oc si s i2 tb sm CC HR) as (id1 & sm1 & E1 & K1 & HR1); [rewrite Ei, Es, part_char; apply Rs; rewrite Es; apply in_elt|lia|lia|].
    get_member (sl_charat _ _ _ _ _ (lib_split tb sm1)) oc' CC'. 
    destruct (charat_in R n oc' di d (zlen d1) tb sm1 CC' HR1) as (id2 & sm2 & E2 & K2 & HR2); [rewrite Ed, part_char; apply Rd; rewrite Ed; apply in_elt|lia|lia|].
    replace (part_of s i2 (i2 + 1)) with [x] in * by (rewrite Ei, Es, part_char; reflexivity). replace (part_of d (zlen d1) (zlen d1 + 1)) with [y] in * by (rewrite Ed, part_char; reflexivity).
    unfold iterate, inner_while, split_vars. cbn [fst snd]. ev. vars. rewrite lt_ints. ev. rewrite not_val. ev. rewrite and_val. ev. rewrite !truthy_bool.
    replace (zlen d1 <? zlen d) with true by lia. cbn [andb truthy negb]. ev. vars. rewrite G. ev. rewrite T. ev. rewrite E1. ev. vars. rewrite G0. ev. rewrite T0. ev. rewrite E2. ev. rewrite eq_strs by apply Hnt. ev. rewrite truthy_bool, same_char. cbn [existsb] in *.
    destruct (x =? y) eqn:EXY.
    + cbn [orb] in *. ev. change (num_val strtof [49]) with (OInt 1). unfold assign. vars. ev. vars. rewrite gt_ints. ev. rewrite truthy_bool. rewrite Z.gtb_ltb. destruct (i1 <? i2) eqn:EI.
      * get_member (sl_sub _ _ _ _ _ (lib_split tb sm2)) os CS. vars. ev. vars. rewrite G1. ev. rewrite T1. ev. rewrite (call_c_value _ _ _ _ _ _ _ _ _ _ _ CS).
        destruct (sub_in R si s i1 i2 (at_split tb sm2) HR2 (HP eq_refl ltac:(lia)) ltac:(lia) ltac:(lia) ltac:(lia)) as (id & sm3 & E3 & Hid & Hg & HK & HR3). rewrite E3. ev. change (set_strs (at_split tb sm2) sm3) with (at_split tb sm3).
        destruct (arr_add tb L (OStr id (part_of s i1 i2)) HA ltac:(lia)) as (tb' & ET & HA'). rewrite (put_split _ _ _ _ _ _ ET). ev. vars. rewrite add_ints by (unfold int32_range; lia). ev. unfold assign. vars. ev. cbn [firstn length]. ev. vars. rewrite add_ints by (unfold int32_range; lia). ev. unfold assign. vars. ev. cbn [firstn length].
        destruct n as [|n]; cbn [Source.at_most again]; unfold iterate; ev; vars; rewrite lt_ints; ev; rewrite not_val; ev; rewrite and_val; ev; rewrite !truthy_bool; cbn [truthy Z.eqb negb]; rewrite andb_false_r.
        { eexists _, tb', sm3. split; [reflexivity|]. split; [eexists _, _; split; [reflexivity|]; exists (OStr id (part_of s i1 i2)); split; [exists id; auto|exact HA']|]. split; [|exact HR3]. eapply keeps_strings_trans; [eapply keeps_strings_trans|]; eauto. }
        { eexists _, tb', sm3. split; [reflexivity|]. split; [eexists _, _; split; [reflexivity|]; exists (OStr id (part_of s i1 i2)); split; [exists id; auto|exact HA']|]. split; [|exact HR3]. eapply keeps_strings_trans; [eapply keeps_strings_trans|]; eauto. }
      * ev. vars. rewrite add_ints by (unfold int32_range; lia). ev. unfold assign. vars. ev. cbn [firstn length].
        destruct n as [|n]; cbn [Source.at_most again]; unfold iterate; ev; vars; rewrite lt_ints; ev; rewrite not_val; ev; rewrite and_val; ev; rewrite !truthy_bool; cbn [truthy Z.eqb negb]; rewrite andb_false_r.
        { eexists _, tb, sm2. split; [reflexivity|]. split; [eexists _, _; split; reflexivity|]. split; [|exact HR2]. eapply keeps_strings_trans; eauto. }
        { eexists _, tb, sm2. split; [reflexivity|]. split; [eexists _, _; split; reflexivity|]. split; [|exact HR2]. eapply keeps_strings_trans; eauto. }
    + cbn [orb] in *. ev. change (num_val strtof [49]) with (OInt 1). rewrite add_ints by (unfold int32_range; lia). ev. unfold assign. vars. ev. cbn [firstn length]. ev. cbn [Source.at_most again].
      destruct (IH (d1 ++ [y]) n tb sm2 L) as (l' & tb' & sm' & E & HQ & HK & HR'); [rewrite <- app_assoc; exact Ed|cbn [length] in Hn; lia|exact HA|exact HL|exact HR2|exact HP|].
      rewrite zlen_app in E. change (zlen [y]) with 1 in E. exists l', tb', sm'. split; [exact E|]. split; [exact HQ|]. split; [|exact HR']. eapply keeps_strings_trans; [|exact HK]. eapply keeps_strings_trans; eauto.
Qed.

Lemma strings_after sm sm' ps L : keeps_strings sm sm' -> Forall2 (is_string sm) ps L -> Forall2 (is_string sm') ps L.
Proof. intros HK H. induction H as [|p o ps L (id & A & B & C) H IH]; constructor; auto. exists id. auto. Qed.
Lemma pieces_eq x w t : pieces_between d w (x :: t) = if existsb (Z.eqb x) d then piece w ++ pieces_between d [] t else pieces_between d (w ++ [x]) t. Proof. reflexivity. Qed.
Definition outer_body : stats := Eval vm_compute in match snd outer_while with Block b => b | _ => Ss_nil end.
Lemma outer_loop s2 : forall s1 i1 n tb sm ps L, s = s1 ++ s2 -> 0 <= i1 <= zlen s1 -> (length s2 + length d + 1 < n)%nat -> arr tb L -> zlen L <= zlen s1 -> Forall2 (is_string sm) ps L -> rooms R sm ->
  (forall p, In p (pieces_between d (part_of s i1 (zlen s1)) s2) -> In p R) ->
  exists i1' tb' sm' ps' L', iterate (at_most n) (fst outer_while) None (snd outer_while) (split_vars i1 (zlen s1) (zlen L) []) (at_split tb sm) = Done (None, split_vars i1' (zlen s) (zlen L') [], at_split tb' sm') /\
    0 <= i1' <= zlen s /\ zlen L' <= zlen s /\ arr tb' L' /\ Forall2 (is_string sm') ps' L' /\ rooms R sm' /\ keeps_strings sm sm' /\ (forall p, In p (piece (part_of s i1' (zlen s))) -> In p R) /\
    ps ++ pieces_between d (part_of s i1 (zlen s1)) s2 = ps' ++ piece (part_of s i1' (zlen s)).
Proof.
  induction s2 as [|x s2 IH]; intros s1 i1 n tb sm ps L Es Hi Hn HA HLL HF HR HP.
  - rewrite app_nil_r in Es. subst s1. exists i1, tb, sm, ps, L. unfold iterate, outer_while, split_vars. cbn [fst snd]. ev. vars. rewrite lt_ints. ev. rewrite truthy_bool, Z.ltb_irrefl.
    split; [reflexivity|]. split; [exact Hi|]. split; [exact HLL|]. split; [exact HA|]. split; [exact HF|]. split; [exact HR|]. split; [intros i t _ Q; exact Q|]. split; [exact HP|reflexivity].
  - assert (HLs : zlen s = zlen s1 + 1 + zlen s2) by (rewrite Es, zlen_app; unfold zlen; cbn [length]; lia). assert (P3 : 0 <= zlen s1) by (unfold zlen; lia). assert (P4 : 0 <= zlen s2) by (unfold zlen; lia). assert (P5 : 0 <= zlen L) by (unfold zlen; lia).
    rewrite pieces_eq in HP |- *. destruct n as [|n]; [lia|].
    destruct (inner_loop s1 x s2 i1 (zlen s1) Es eq_refl Hi d [] (S n) tb sm L eq_refl ltac:(cbn [length] in Hn; lia) HA HLL HR) as (l' & tb1 & sm1 & E & (j & f & HQ) & HK & HR1).
    { intros ED HI. rewrite ED in HP. apply HP, in_or_app. left. rewrite part_piece by lia. replace (i1 <? zlen s1) with true by lia. left. reflexivity. }
    assert (HB : exec_all (at_most (S n)) outer_body (split_vars i1 (zlen s1) (zlen L) []) (at_split tb sm) = Done (None, var_set l' [105; 50] (OInt (zlen s1 + 1)), at_split tb1 sm1)).
    { unfold outer_body. erewrite seq_step by (unfold split_vars; ev; cbn [is_top]; ev; change (num_val strtof [48]) with (OInt 0); vars; reflexivity). erewrite seq_step by (ev; cbn [is_top]; ev; vars; reflexivity). erewrite seq_step by (rewrite while_iterate; exact E).
      assert (V : forall st : sst, var_val [105; 50] l' st = OInt (zlen s1)) by (intro; destruct (existsb (Z.eqb x) d); destruct HQ as [-> _]; unfold split_vars; vars; reflexivity).
      assert (V2 : var_get l' [105; 50] = Some (OInt (zlen s1))) by (destruct (existsb (Z.eqb x) d); destruct HQ as [-> _]; unfold split_vars; vars; reflexivity).
      ev. rewrite V. change (num_val strtof [49]) with (OInt 1). rewrite add_ints by (unfold int32_range; lia). ev. unfold assign. rewrite V2. reflexivity. }
    assert (HC : Source.eval strtof powf sid ref (at_most (S n)) (fst outer_while) (split_vars i1 (zlen s1) (zlen L) []) (at_split tb sm) = Done (of_bool true, at_split tb sm)).
    { unfold outer_while, split_vars. cbn [fst]. ev. vars. rewrite lt_ints. ev. replace (zlen s1 <? zlen s) with true by lia. reflexivity. }
    change (snd outer_while) with (Block outer_body). rewrite (iterate_step _ _ _ _ _ _ _ _ _ _ _ _ _ HC eq_refl HB). cbn [Source.at_most again].
    assert (HS1 : zlen (s1 ++ [x]) = zlen s1 + 1) by (rewrite zlen_app; reflexivity).
    assert (HPG : part_of s i1 (zlen s1 + 1) = part_of s i1 (zlen s1) ++ [x]) by (rewrite Es; apply part_grow; lia).
    assert (HPE : part_of s (zlen s1 + 1) (zlen s1 + 1) = []) by (unfold part_of; rewrite Z.sub_diag; reflexivity).
    destruct (existsb (Z.eqb x) d) eqn:ED; destruct HQ as [-> HQ].
    + rewrite part_piece in * by lia. set (L1 := if i1 <? zlen s1 then zlen L + 1 else zlen L) in *.
      assert (H : exists ps1 L', zlen L' = L1 /\ arr tb1 L' /\ Forall2 (is_string sm1) (ps ++ ps1) L' /\ ps1 = (if i1 <? zlen s1 then [part_of s i1 (zlen s1)] else [])).
      { unfold L1. destruct (i1 <? zlen s1).
        - destruct HQ as (o & Ho & HA1). exists [part_of s i1 (zlen s1)], (L ++ [o]). split; [rewrite zlen_app; reflexivity|]. split; [exact HA1|]. split; [|reflexivity]. apply Forall2_app; [eapply strings_after; eauto|]. constructor; [exact Ho|constructor].
        - subst tb1. exists [], L. split; [reflexivity|]. split; [exact HA|]. split; [|reflexivity]. rewrite app_nil_r. eapply strings_after; eauto. }
      destruct H as (ps1 & L' & HL1 & HA1 & HF1 & Eps). rewrite <- Eps in *. 
      destruct (IH (s1 ++ [x]) (zlen s1 + 1) n tb1 sm1 (ps ++ ps1) L') as (i1' & tb' & sm' & ps' & L2 & E2 & A1 & A2 & A3 & A4 & A5 & A6 & A7 & A8).
      * rewrite <- app_assoc. exact Es. * lia. * cbn [length] in Hn. lia. * exact HA1. * rewrite HL1. unfold L1. destruct (i1 <? zlen s1); lia. * exact HF1. * exact HR1.
      * rewrite HS1, HPE. intros p Hp. apply HP, in_or_app. right. exact Hp.
      * rewrite HS1, HPE in A8. rewrite HS1, HL1 in E2. exists i1', tb', sm', ps', L2. split; [exact E2|]. split; [exact A1|]. split; [exact A2|]. split; [exact A3|]. split; [exact A4|]. split; [exact A5|]. split; [eapply keeps_strings_trans; eauto|]. split; [exact A7|]. rewrite <- A8, app_assoc. reflexivity.
    + subst tb1. destruct (IH (s1 ++ [x]) i1 n tb sm1 ps L) as (i1' & tb' & sm' & ps' & L2 & E2 & A1 & A2 & A3 & A4 & A5 & A6 & A7 & A8).
      * rewrite <- app_assoc. exact Es. * lia. * cbn [length] in Hn. lia. * exact HA. * lia. * eapply strings_after; eauto. * exact HR1.
      * rewrite HS1, HPG. exact HP.
      * rewrite HS1, HPG in A8. rewrite HS1 in E2. exists i1', tb', sm', ps', L2. split; [exact E2|]. split; [exact A1|]. split; [exact A2|]. split; [exact A3|]. split; [exact A4|]. split; [exact A5|]. split; [eapply keeps_strings_trans; eauto|]. split; [exact A7|]. exact A8.
Qed.
End Split.
Lemma split_ok (Hnt : forall a b, c_strcmp powf a b <> 2) f si s di d (st : sst) : string_lib st -> fun_value ref fns f split_fun -> zlen s < 2 ^ 31 - 1 -> zlen d < 2 ^ 31 - 1 ->
  rooms (map (fun x => [x]) (s ++ d) ++ pieces_between d [] s) (s_str st) ->
  exists tb sm L, returns sid ref fns cfun strtof powf f [OStr si s; OStr di d] st (OTab (zlen (s_heap st))) (mkSt (s_glob st) (s_heap st ++ [tb]) sm (s_ext st)) /\
    list_table tb L /\ Forall2 (is_string sm) (pieces_between d [] s) L /\ keeps_strings (s_str st) sm /\ strings_ok sm.
Proof.
  intros HL HF Hs Hd HR. set (R := map (fun x => [x]) (s ++ d) ++ pieces_between d [] s) in *. set (N := (length s + length d + 2)%nat).
  assert (Rs : forall x, In x s -> In [x] R) by (intros x Hx; apply in_or_app; left; apply (in_map (fun x => [x])), in_or_app; left; exact Hx).
  assert (Rd : forall x, In x d -> In [x] R) by (intros x Hx; apply in_or_app; left; apply (in_map (fun x => [x])), in_or_app; right; exact Hx).
  destruct (call_fun strtof powf sid ref fns cfun N f _ [OStr si s; OStr di d] st HF eq_refl) as (self & HC).
  assert (HP0 : part_of s 0 0 = []) by reflexivity.
  destruct (outer_loop st HL Hnt self si s di d Hs Hd R Rs Rd s [] 0 N tab_new (s_str st) [] [] eq_refl) as (i1 & tb & sm & ps & L & E & Hi & HLL & HA & HF2 & HR2 & HK & HP & Eps); [unfold zlen; cbn; lia|unfold N; lia|exact arr_new|unfold zlen; cbn; lia|constructor|exact HR|intros p Hp; apply in_or_app; right; exact Hp|].
  change (part_of s 0 (zlen [])) with (@nil Z) in Eps. cbn [app] in Eps. assert (PP : piece (part_of s i1 (zlen s)) = if i1 <? zlen s then [part_of s i1 (zlen s)] else []) by (apply part_piece; auto; lia). rewrite PP in HP, Eps.
  assert (HB : call (at_most (S N)) f [OStr si s; OStr di d] st = obind (exec_all (at_most N) (Ss_cons split_last (Ss_cons (S_returnval (E_var [116])) Ss_nil)) (split_vars st self si s di d i1 (zlen s) (zlen L) []) (at_split st tb sm)) (fun '(r, _, st) => Done (match r with Some v => v | None => ONil end, st))).
  { rewrite HC. get_member (sl_length _ _ _ _ _ (lib_split st HL tab_new (s_str st))) ol CL. unfold split_fun. change (bs "self") with [115; 101; 108; 102]. cbn [combine fst snd]. assert (Hdl : zlen d < 2 ^ 31) by lia.
    erewrite seq_step by (ev; cbn [is_top]; ev; change (num_val strtof [48]) with (OInt 0); vars; reflexivity).
    erewrite seq_step by (ev; cbn [is_top]; ev; change (num_val strtof [48]) with (OInt 0); vars; reflexivity).
    erewrite seq_step by (ev; cbn [is_top]; ev; change (num_val strtof [48]) with (OInt 0); vars; reflexivity).
    erewrite seq_step by (ev; cbn [is_top]; ev; cbn [fill]; ev; change (set_tabs st (s_heap st ++ [tab_new])) with (at_split st tab_new (s_str st)); vars; reflexivity).
    erewrite seq_step by (ev; cbn [is_top]; ev; vars; rewrite G; ev; rewrite T; ev; rewrite (call_c_value _ _ _ _ _ _ _ _ _ _ _ CL), length_ok by lia; ev; vars; reflexivity).
    erewrite seq_step by (ev; cbn [is_top]; ev; vars; rewrite G; ev; rewrite T; ev; rewrite (call_c_value _ _ _ _ _ _ _ _ _ _ _ CL), length_ok by lia; ev; vars; reflexivity).
    erewrite seq_step by (rewrite while_iterate; exact E). reflexivity. }
  assert (H : exists tb' sm' L', call (at_most (S N)) f [OStr si s; OStr di d] st = Done (OTab (zlen (s_heap st)), at_split st tb' sm') /\ arr tb' L' /\ zlen L' <= zlen s + 1 /\ Forall2 (is_string sm') (pieces_between d [] s) L' /\ keeps_strings (s_str st) sm' /\ rooms R sm').
  { rewrite HB. clear HB HC E. unfold split_last, split_vars. destruct (i1 <? zlen s) eqn:EI.
    - get_member (sl_sub _ _ _ _ _ (lib_split st HL tb sm)) os CS. destruct (sub_in R si s i1 (zlen s) (at_split st tb sm) HR2 (HP _ (or_introl eq_refl)) ltac:(lia) ltac:(lia) ltac:(lia)) as (id & sm3 & E3 & Hid & Hg & HK3 & HR3).
      destruct (arr_add tb L (OStr id (part_of s i1 (zlen s))) HA ltac:(lia)) as (tb' & ET & HA').
      ev. vars. rewrite gt_ints. ev. rewrite truthy_bool, Z.gtb_ltb, EI. ev. vars. rewrite G. ev. rewrite T. ev. rewrite (call_c_value _ _ _ _ _ _ _ _ _ _ _ CS). rewrite E3. ev. change (set_strs (at_split st tb sm) sm3) with (at_split st tb sm3). rewrite (put_split _ _ _ _ _ _ _ ET). ev. cbn [firstn length]. ev. vars.
      exists tb', sm3, (L ++ [OStr id (part_of s i1 (zlen s))]). split; [reflexivity|]. split; [exact HA'|]. split; [rewrite zlen_app; change (zlen [OStr id (part_of s i1 (zlen s))]) with 1; lia|]. split; [|split; [eapply keeps_strings_trans; eauto|exact HR3]].
      rewrite Eps. apply Forall2_app; [eapply strings_after; eauto|]. constructor; [exists id; auto|constructor].
    - ev. vars. rewrite gt_ints. ev. rewrite truthy_bool, Z.gtb_ltb, EI. ev. vars. exists tb, sm, L. split; [reflexivity|]. split; [exact HA|]. split; [lia|]. split; [rewrite Eps, app_nil_r; exact HF2|]. auto. }
  destruct H as (tb' & sm' & L' & EC & HA' & HLL' & HF' & HK' & HR'). exists tb', sm', L'. split; [exists (S N); intros k Hk; eapply call_mono; eauto|]. split; [apply arr_list; [exact HA'|lia]|]. split; [exact HF'|]. split; [exact HK'|exact (proj1 HR')].
Qed.
End Bzz.

(** ** The file is executed *)
Section Puts.
Context {X : Type}.
Notation sst := (sst X).
Variable strtof : list Z -> option Z.
Variable powf : libm.
Variable sid : str -> Z.
Variable ref : Z -> Z.
Variable x : string.
Variable a : Z.
Lemma puts_ok : forall l (st : sst) t, s_glob st (bs x) = OTab a -> 0 <= a -> nth_error (s_heap st) (Z.to_nat a) = Some t -> good_strings (s_str st) -> made (s_str st) t ->
  Forall (fun e => live_key (s_str st) (OStr (sid (bs (fst (fst e)))) (bs (fst (fst e))))) l -> NoDup (map (fun e => bs (fst (fst e))) l) ->
  exists t', (forall k r, exec_all strtof powf sid ref k (puts x l r) [] st = exec_all strtof powf sid ref k r [] (set_tabs st (upd (s_heap st) (Z.to_nat a) t'))) /\ made (s_str st) t' /\
    (forall n i f, In (n, i, f) l -> tab_get t' (OStr (sid (bs n)) (bs n)) = Ok (Some (OClos true (ref i) [OTab a]))) /\
    (forall y, live_key (s_str st) (OStr (sid y) y) -> ~ In y (map (fun e => bs (fst (fst e))) l) -> tab_get t' (OStr (sid y) y) = tab_get t (OStr (sid y) y)).
Proof.
  induction l as [|[[n i] f] l IH]; intros st t HG Ha HT HS HM HL HN.
  - exists t. split; [|split; [exact HM|split; [intros ? ? ? []|auto]]]. intros k r. rewrite upd_id by exact HT. destruct st; reflexivity.
  - inversion HL as [|? ? L1 L2]; subst. inversion HN as [|? ? N1 N2]; subst. cbn [fst] in *.
    destruct (made_set _ t _ (OClos true (ref i) [OTab a]) HS HM L1) as (t1 & E1 & M1 & G1 & O1).
    set (st1 := set_tabs st (upd (s_heap st) (Z.to_nat a) t1)).
    assert (HT1 : nth_error (s_heap st1) (Z.to_nat a) = Some t1) by (cbn; rewrite upd_nth_error by (apply nth_error_Some; congruence); rewrite Nat.eqb_refl; reflexivity).
    destruct (IH st1 t1 HG Ha HT1 HS M1 L2 N2) as (t' & E & M & I1 & I2). exists t'. split; [|split; [exact M|split]].
    + intros k r. cbn [puts]. rewrite (seq_step strtof powf sid ref k _ _ [] st [] st1).
      * rewrite E. unfold st1, set_tabs. cbn [s_glob s_heap s_str s_ext]. rewrite upd_upd. reflexivity.
      * cbn [Source.exec Source.eval obind fst snd]. unfold var_val. cbn [var_get]. rewrite HG. unfold fun_val. cbn [map put_val is_key bind_self tl]. unfold table_at. replace (0 <=? a) with true by lia. rewrite HT. cbn [obind]. rewrite E1. reflexivity.
    + intros n' i' f' [H|H]; [|eauto]. inversion H; subst n' i' f'. rewrite I2; [exact G1|exact L1|exact N1].
    + intros y Hy Hn. rewrite I2; [|exact Hy|intro Q; apply Hn; right; exact Q]. apply O1; [exact Hy|]. cbn. apply not_true_iff_false. intro Q. apply Hn. left. cbn [fst]. destruct (list_eq_dec Z.eq_dec (bs n) y); [assumption|discriminate].
Qed.
End Puts.

(** The words of string.bzz that are keys. *)
Definition string_keys : list string := ["length"; "sub"; "charat"; "indexoffirst"; "indexoflast"; "split"]%string.
Lemma sm_unique sm i j t : strings_ok sm -> 0 <= i < 65536 -> 0 <= j < 65536 -> sm_get sm i = Some t -> sm_get sm j = Some t -> i = j.
Proof.
  intros HS Hi Hj Gi Gj. destruct HS as (ops & outs & A0 & B0). pose proof A0 as B. pose proof B0 as A. destruct SInv_new as [HI HD]. destruct (sm_run_ok ops _ _ HI HD B) as (sm' & outs' & M' & E' & _ & HI' & HD'). rewrite A in E'. inversion E'; subst sm' outs'.
  unfold sm_get in *. destruct (i2s_get (id2str sm) i) as [[u q]|] eqn:E1; [|discriminate]. destruct (i2s_get (id2str sm) j) as [[u' q']|] eqn:E2; [|discriminate]. inversion Gi; inversion Gj; subst u u'.
  apply (si_i2s _ _ HI') in E1; auto. apply (si_i2s _ _ HI') in E2; auto. congruence.
Qed.
Lemma found_fun ref (fns : list func) f : In f fns -> (forall g h, In g fns -> In h fns -> ref (fn_id g) = ref (fn_id h) -> g = h) -> find (fun fn => ref (fn_id fn) =? ref (fn_id f)) fns = Some f.
Proof.
  intros HI HU. destruct (find _ fns) as [g|] eqn:E; [apply find_some in E as [E1 E2]; f_equal; apply HU; auto; lia|]. pose proof (find_none _ _ E f HI) as Q. cbn in Q. lia.
Qed.
Lemma loaded_ok X c fid robot (st0 st : sst X) strtof powf sid ref fns i1 i2 i3 i4 : library fid robot st0 st -> strings_ok (s_str st) ->
  (forall n, In n string_keys -> 0 <= sid (bs n) < 65536 /\ sm_get (s_str st) (sid (bs n)) = Some (bs n)) ->
  0 <= fid "buzzstring_length"%string < 2 ^ 31 -> 0 <= fid "buzzstring_sub"%string < 2 ^ 31 -> fid "buzzstring_length"%string <> fid "buzzstring_sub"%string ->
  (forall f, In f (functions (string_bzz_with i1 i2 i3 i4 Ss_nil)) -> In f fns) -> (forall f h, In f fns -> In h fns -> ref (fn_id f) = ref (fn_id h) -> f = h) ->
  exists st', (forall k r, exec_all strtof powf sid ref k (string_bzz_with i1 i2 i3 i4 r) [] st = exec_all strtof powf sid ref k r [] st') /\
    string_lib sid ref fns (std_cfun c fid) st' /\ s_glob st' = s_glob st /\ s_str st' = s_str st /\ s_ext st' = s_ext st /\ zlen (s_heap st') = zlen (s_heap st) /\
    (forall b, s_glob st (bs "string") <> OTab (Z.of_nat b) -> nth_error (s_heap st') b = nth_error (s_heap st) b).
Proof.
  intros HL HS HK F1 F2 FN HF HU. destruct (lib_tables _ _ _ _ HL) as (ts & Eh & Ez & Hts). set (b := zlen (s_heap st0)) in *.
  destruct (nth_error ts 6) as [t|] eqn:ET; [|apply nth_error_None in ET; unfold zlen in Ez; cbn in Ez; lia].
  destruct (Hts 6%nat _ t eq_refl ET) as (HM & _ & HB). replace (b + Z.of_nat 6) with (b + 6) in HM by lia.
  pose proof (lib_globals _ _ _ _ HL "string"%string (V_table 6) ltac:(cbn; tauto)) as HG. cbn [denotes] in HG. fold b in HG.
  assert (Hb : 0 <= b) by (unfold b, zlen; lia). assert (HGS : good_strings (s_str st)) by (split; [destruct HS as (o1 & o2 & P1 & P2); exists o1, o2; split; assumption|exact (lib_live _ _ _ _ HL)]).
  assert (HT : nth_error (s_heap st) (Z.to_nat (b + 6)) = Some t).
  { rewrite Eh, nth_error_app2 by (unfold b, zlen; lia). replace (Z.to_nat (b + 6) - length (s_heap st0))%nat with 6%nat by (unfold b, zlen; lia). exact ET. }
  assert (HLV : forall n, In n string_keys -> live_key (s_str st) (OStr (sid (bs n)) (bs n))).
  { intros n Hn. destruct (HK n Hn). cbn. split; [lia|]. split; [assumption|]. cbn in Hn. repeat (destruct Hn as [<-|Hn]; [reflexivity|]). destruct Hn. }
  destruct (puts_ok strtof powf sid ref "string" (b + 6) [("charat"%string, i1, charat_fun); ("indexoffirst"%string, i2, indexoffirst_fun); ("indexoflast"%string, i3, indexoflast_fun); ("split"%string, i4, split_fun)] st t HG ltac:(lia) HT HGS HB) as (t' & E & M' & I1 & I2).
  { repeat (constructor; [apply HLV; cbn; tauto|]). constructor. }
  { nodup. }
  assert (HT' : table_at (upd (s_heap st) (Z.to_nat (b + 6)) t') (b + 6) = Done t').
  { unfold table_at. replace (0 <=? b + 6) with true by lia. rewrite upd_nth_error by (apply nth_error_Some; congruence). rewrite Nat.eqb_refl. reflexivity. }
  assert (HC : forall n o, tab_get t' (OStr (sid (bs n)) (bs n)) = Ok (Some o) -> member sid (set_tabs st (upd (s_heap st) (Z.to_nat (b + 6)) t')) "string" n o).
  { intros n o H. exists (b + 6). split; [exact HG|]. cbn [get_val is_key set_tabs s_heap]. rewrite HT'. cbn [obind]. rewrite H. reflexivity. }
  assert (HO : forall n, In n ["length"; "sub"]%string -> member sid (set_tabs st (upd (s_heap st) (Z.to_nat (b + 6)) t')) "string" n (OClos false (sign32 (fid ("buzzstring_" ++ n)%string)) [OTab (b + 6)])).
  { intros n Hn. apply HC. assert (Hn' : In n string_keys) by (cbn in Hn |- *; tauto). rewrite I2; [|apply HLV; exact Hn'|].
    - destruct (HM n (V_C ("buzzstring_" ++ n)%string)) as (o & HD & (i & Hi & Gi & Ti)); [cbn in Hn |- *; destruct Hn as [<-|[<-|[]]]; tauto|]. cbn [denotes] in HD. subst o. destruct (HK n Hn') as [K1 K2]. rewrite (sm_unique _ _ _ _ HS K1 Hi K2 Gi). exact Ti.
    - intro Q. cbn in Hn. destruct Hn as [<-|[<-|[]]]; vm_compute in Q; repeat (destruct Q as [Q|Q]; [discriminate|]); destruct Q. }
  assert (HFV : forall n i f, In (n, i, f) [("charat"%string, i1, charat_fun); ("indexoffirst"%string, i2, indexoffirst_fun); ("indexoflast"%string, i3, indexoflast_fun); ("split"%string, i4, split_fun)] -> In (mkFn i (bs "self" :: fst f) (snd f)) (functions (string_bzz_with i1 i2 i3 i4 Ss_nil)) ->
    exists o, member sid (set_tabs st (upd (s_heap st) (Z.to_nat (b + 6)) t')) "string" n o /\ fun_value ref fns o f).
  { intros n i f Hin Hfn. exists (OClos true (ref i) [OTab (b + 6)]). split; [apply HC, (I1 n i f Hin)|]. exists (ref i), (OTab (b + 6)), (mkFn i (bs "self" :: fst f) (snd f)). split; [reflexivity|]. split; [|split; reflexivity].
    exact (found_fun ref fns _ (HF _ Hfn) HU). }
  exists (set_tabs st (upd (s_heap st) (Z.to_nat (b + 6)) t')). split; [exact E|]. split; [|split; [reflexivity|split; [reflexivity|split; [reflexivity|split]]]].
  - split.
    + eexists. split; [apply (HO "length"%string); cbn; tauto|]. eexists _, _. split; [reflexivity|]. intros args st1. unfold std_cfun. cbn [String.append]. rewrite PgFun.sign32_id by lia. unfold std_meanings. cbn [app find fst]. rewrite Z.eqb_refl. cbn [snd]. destruct args as [|? [|]]; reflexivity.
    + eexists. split; [apply (HO "sub"%string); cbn; tauto|]. eexists _, _. split; [reflexivity|]. intros args st1. unfold std_cfun. cbn [String.append]. rewrite PgFun.sign32_id by lia. unfold std_meanings. cbn [app find fst]. replace (fid "buzzstring_length"%string =? fid "buzzstring_sub"%string) with false by lia. rewrite Z.eqb_refl. cbn [snd]. destruct args as [|? [|? [|]]]; reflexivity.
    + apply (HFV _ i1); [cbn; tauto|left; reflexivity].
    + apply (HFV _ i2); [cbn; tauto|right; left; reflexivity].
    + apply (HFV _ i3); [cbn; tauto|right; right; left; reflexivity].
    + apply (HFV _ i4); [cbn; tauto|right; right; right; left; reflexivity].
  - cbn [set_tabs s_heap]. unfold zlen. rewrite upd_length. reflexivity.
  - intros b' Hb'. cbn [set_tabs s_heap]. rewrite upd_nth_error by (apply nth_error_Some; congruence). replace (Nat.eqb (Z.to_nat (b + 6)) b') with false; [reflexivity|]. symmetry. apply Nat.eqb_neq. intro Q. apply Hb'. rewrite HG. f_equal. lia.
Qed.

(** ** C106: scripts that include string.bzz *)
(** A script that starts with the statements of string.bzz, by including it or otherwise: after them, the table string has the functions of
    the file besides those in C, and the rest of the script executes as the language says from there. *)
Theorem C106_string_bzz :
  forall strtof open name path text ps ts i1 i2 i3 i4 r,
  let l := string_bzz_with i1 i2 i3 i4 r in
  open name = Some (path, text) -> text ++ [NL] = layout ps -> reads open [path] path [] ps ts ->
  (forall t, In t ts -> t_line t < 2 ^ 63 /\ t_col t < 2 ^ 63 /\ plain_path (t_file t)) ->
  spells_script ts l -> ok_script strtof l = true ->
  NoDup (map fn_id (functions l)) -> zlen (nodup (list_eq_dec Z.eq_dec) (words l)) <= 65534 ->
  exists k0 asm, (forall k, (k0 <= k)%nat -> bzzparse open k [] name = Ok (Some asm)) /\
  (zlen asm < 2 ^ 31 ->
   exists code dbg sid ref,
     buzz_asm strtof asm = Ok (0, code, dbg) /\
     exists m, forall X (x : X) c fid robot flist powf fuel, std_registered c fid flist -> fid "buzzstring_length"%string <> fid "buzzstring_sub"%string -> (m <= fuel)%nat ->
     exists v, load_code flist powf code fuel (vm_new x) = Ok (v, true) /\
       (sm_live (v_str v) + zlen library_names < 65534 ->
        exists v1 st, load_all fid flist powf code robot fuel (vm_new x) = Ok (v1, S_READY) /\
          string_lib sid ref (functions l) (std_cfun c fid) st /\ s_str st = v_str v1 /\ strings_ok (s_str st) /\ s_ext st = x /\
          (forall n, executes code (keeping (v_str v)) sid (words l) (fun fuel => execute_script flist powf (byte code) (zlen code) fuel v1)
                       (run strtof powf sid ref (functions l) (std_cfun c fid) n r st)) /\
          ((forall n, run strtof powf sid ref (functions l) (std_cfun c fid) n r st = More) ->
           forall fuel, execute_script flist powf (byte code) (zlen code) fuel v1 = Hang))).
Proof.
  intros strtof open name path text ps ts i1 i2 i3 i4 r l HO HT HR HP HS HOK HID HW.
  destruct (C103_standard_library strtof open name path text ps ts l HO HT HR HP HS HOK HID HW) as (k0 & asm & HC & H). exists k0, asm. split; [exact HC|]. intro HA.
  destruct (H HA) as (code & dbg & sid & ref & H1 & H2 & HRG & m & H3). exists code, dbg, sid, ref. split; auto. exists m. intros X x c fid robot flist powf fuel HG HFN Hf.
  destruct (H3 X x fid robot flist powf fuel Hf) as (v & V1 & V2). exists v. split; auto. intro HLv. destruct (V2 HLv) as (v1 & st & W1 & W2 & W3 & W4).
  destruct W3 as (_ & _ & _ & _ & _ & _ & _ & A4 & A5 & _ & A7 & A8).
  assert (HWD : forall n, In n string_keys -> In (bs n) (words l)).
  { intros n Hn. unfold l. cbn in Hn. repeat (destruct Hn as [<-|Hn]; [vm_compute; tauto|]). destruct Hn. }
  destruct (loaded_ok X c fid robot _ st strtof powf sid ref (functions l) i1 i2 i3 i4 W2) as (st' & L0 & L1 & L2 & L3 & L4 & _).
  { rewrite <- A4. exact (proj1 A7). }
  { intros n Hn. split; [apply HRG; auto|]. rewrite <- A4. apply A8; auto. }
  { apply (HG "buzzstring_length"%string string_length). left. reflexivity. }
  { apply (HG "buzzstring_sub"%string string_sub). right. left. reflexivity. }
  { exact HFN. }
  { intros f Hfn. unfold l. apply in_or_app. vm_compute in Hfn. vm_compute. tauto. }
  { exact H2. }
  exists v1, st'. split; [exact W1|]. split; [exact L1|]. split; [congruence|]. split; [rewrite L3, <- A4; exact (proj1 A7)|]. split; [rewrite L4; exact (lib_ext _ _ _ _ W2)|].
  assert (HRun : forall n, run strtof powf sid ref (functions l) (std_cfun c fid) n l st = run strtof powf sid ref (functions l) (std_cfun c fid) n r st') by (intro n; unfold run, l; rewrite L0; reflexivity).
  destruct (W4 _ (std_ok X c fid flist (v_str v) HG)) as [Z1 Z2]. split; [intro n; rewrite <- HRun; apply Z1|]. intros HM. apply Z2. intro n. rewrite HRun. apply HM.
Qed.
Print Assumptions C106_string_bzz.

(** ** C106, C107, C108: what the functions do *)
Lemma member_one {X} sid (st : sst X) x n o o' : member sid st x n o -> member sid st x n o' -> o = o'.
Proof. intros (a & A & B) (a' & A' & B'). rewrite A in A'. inversion A'; subst a'. rewrite B in B'. inversion B'. reflexivity. Qed.
Section Claims.
Context {X : Type}.
Variables (strtof : list Z -> option Z) (powf : libm) (sid : str -> Z) (ref : Z -> Z) (fns : list func) (cfun : Z -> list obj -> sst X -> out (obj * sst X)).
Notation string_lib := (string_lib sid ref fns cfun).
Notation returns := (returns sid ref fns cfun strtof powf).
Theorem C106_charat : forall f i t k (st : sst X), string_lib st -> member sid st "string" "charat" f -> room st 1 -> zlen t < 2 ^ 31 - 1 -> 0 <= k < zlen t ->
  exists o st' c, returns f [OStr i t; OInt k] st o st' /\ nth_error t (Z.to_nat k) = Some c /\ is_string (s_str st') [c] o /\ new_strings 1 st st'.
Proof.
  intros f i t k st HL HM HR HT Hk. destruct (sl_charat _ _ _ _ _ HL) as (o & M & F). rewrite (member_one _ _ _ _ _ _ HM M).
  destruct (nth_error t (Z.to_nat k)) as [c|] eqn:EC; [|apply nth_error_None in EC; unfold zlen in Hk; lia].
  destruct (nth_error_split _ _ EC) as (a & b & -> & Hl). assert (Ek : k = zlen a) by (unfold zlen; lia).
  destruct (charat_ok strtof powf sid ref fns cfun 0 o i (a ++ c :: b) k st 1 HL F HR ltac:(lia) HT Hk) as (id & st' & E & Hi & Hg & HN).
  rewrite Ek, part_char in *. exists (OStr id [c]), st', c. split; [exists 1%nat; intros n Hn; eapply call_mono; eauto|]. split; [reflexivity|]. split; [exists id; auto|exact HN].
Qed.
(** The first position where [m] is in [s], or nil, with a strcmp that does not give 2.  Missing: see the next theorem. *)
Theorem C106_indexoffirst_partial : forall f si s mi m (st : sst X), (forall a b, c_strcmp powf a b <> 2) -> string_lib st -> member sid st "string" "indexoffirst" f ->
  zlen s < 2 ^ 31 - 1 -> zlen m < 2 ^ 31 -> room st (zlen s + 1) ->
  exists r st', returns f [OStr si s; OStr mi m] st r st' /\ new_strings (zlen s + 1) st st' /\
    match r with
    | OInt p => occurs_at m s p /\ forall q, q < p -> ~ occurs_at m s q
    | ONil => forall q, ~ occurs_at m s q
    | _ => False
    end.
Proof. intros f si s mi m st Hnt HL HM. destruct (sl_first _ _ _ _ _ HL) as (o & M & F). rewrite (member_one _ _ _ _ _ _ HM M). apply first_ok; auto. Qed.
(** Nor is it when strcmp gives 2 for two strings of the same length: the result says that one is in the other. *)
Theorem C106_indexoffirst_refuted : forall f si s mi m (st : sst X), string_lib st -> member sid st "string" "indexoffirst" f ->
  0 < zlen m < 2 ^ 31 - 1 -> zlen s = zlen m -> c_strcmp powf s m = 2 -> room st 1 ->
  (forall q, ~ occurs_at m s q) /\ exists st', returns f [OStr si s; OStr mi m] st (OInt 0) st' /\ new_strings 1 st st'.
Proof.
  intros f si s mi m st HL HM Hm Hs H2 HR. split.
  - intros q HO. pose proof (occurs_range _ _ _ HO). destruct HO as (a & b & E & Ea). assert (EQ : s = m); [|rewrite (proj2 (c_strcmp_zero powf s m) EQ) in H2; discriminate].
    rewrite E, !zlen_app in Hs. unfold zlen in Hs. destruct a; [|cbn [length] in Hs; lia]. destruct b; [|cbn [length] in Hs; lia]. rewrite app_nil_r in E. exact E.
  - destruct (sl_first _ _ _ _ _ HL) as (o & M & F). rewrite (member_one _ _ _ _ _ _ HM M). apply first_wrong; auto.
Qed.
(** The last position where [m] is in [s], or nil, when [m] has at least two characters.  Missing: see the next theorem. *)
Theorem C107_indexoflast_partial : forall f si s mi m (st : sst X), (forall a b, c_strcmp powf a b <> 2) -> string_lib st -> member sid st "string" "indexoflast" f ->
  zlen s < 2 ^ 31 - 1 -> 2 <= zlen m < 2 ^ 31 -> room st (zlen s + 1) ->
  exists r st', returns f [OStr si s; OStr mi m] st r st' /\ new_strings (zlen s + 1) st st' /\
    match r with
    | OInt p => occurs_at m s p /\ forall q, p < q -> ~ occurs_at m s q
    | ONil => forall q, ~ occurs_at m s q
    | _ => False
    end.
Proof. intros f si s mi m st Hnt HL HM Hs Hm HR. destruct (sl_last _ _ _ _ _ HL) as (o & M & F). rewrite (member_one _ _ _ _ _ _ HM M). apply last_ok; auto. lia. Qed.
(** When [m] is one character, or empty, the result is never a position where [m] is. *)
Theorem C107_indexoflast_refuted : forall f si s mi m (st : sst X), string_lib st -> member sid st "string" "indexoflast" f -> zlen s < 2 ^ 31 - 1 -> zlen m <= 1 ->
  exists p, returns f [OStr si s; OStr mi m] st (OInt p) st /\ p = zlen s - zlen m + 1 /\ ~ occurs_at m s p.
Proof. intros f si s mi m st HL HM Hs Hm. destruct (sl_last _ _ _ _ _ HL) as (o & M & F). rewrite (member_one _ _ _ _ _ _ HM M). exists (zlen s - zlen m + 1). destruct (last_wrong strtof powf sid ref fns cfun o si s mi m st HL F Hs Hm). auto. Qed.
(** A new table with the pieces of [s] between characters of [d], under 0, 1, ...; nothing else changes but new strings.  Missing: a
    strcmp that may give 2 (then characters that differ are taken for equal: C111). *)
Theorem C108_split_partial : forall f si s di d (st : sst X), (forall a b, c_strcmp powf a b <> 2) -> string_lib st -> member sid st "string" "split" f -> zlen s < 2 ^ 31 - 1 -> zlen d < 2 ^ 31 - 1 ->
  rooms (map (fun x => [x]) (s ++ d) ++ pieces_between d [] s) (s_str st) ->
  exists tb sm l, returns f [OStr si s; OStr di d] st (OTab (zlen (s_heap st))) (mkSt (s_glob st) (s_heap st ++ [tb]) sm (s_ext st)) /\
    list_table tb l /\ Forall2 (is_string sm) (pieces_between d [] s) l /\ keeps_strings (s_str st) sm /\ strings_ok sm.
Proof. intros f si s di d st Hnt HL HM. destruct (sl_split _ _ _ _ _ HL) as (o & M & F). rewrite (member_one _ _ _ _ _ _ HM M). apply split_ok; auto. Qed.
End Claims.
Print Assumptions C106_charat.
Print Assumptions C106_indexoffirst_partial.
Print Assumptions C106_indexoffirst_refuted.
Print Assumptions C107_indexoflast_partial.
Print Assumptions C107_indexoflast_refuted.
Print Assumptions C108_split_partial.

(** The pieces: not empty, without delimiters, in order; what is left out are delimiters. *)
Example pieces_case : pieces_between (bs ",;") [] (bs ",go,,left;up") = [bs "go"; bs "left"; bs "up"]. Proof. reflexivity. Qed.

(** ** A script *)
Definition words_files (name : list Z) : option (list Z * list Z) :=
  if list_eq_dec Z.eq_dec name (bs "main") then Some (bs "/main", bs "include 'string.bzz'
a = string.indexoffirst('abcab', 'ab')
b = string.indexoflast('abcab', 'ab')
c = string.indexoflast('abcab', 'b')
t = string.split(',go,,left;up', ',;')
n = size(t)
x = t[0]
y = t[2]
z = string.charat('robot', 4)")
  else if list_eq_dec Z.eq_dec name (bs "string.bzz") then string_bzz_file [] else None.
Definition words_script : stats := got_script (script_of no_strtof_ words_files 4000 (bs "main")).
Definition words_code : list Z := got_code (buzz_asm no_strtof_ (got_asm (bzzparse words_files 9000 [] (bs "main")))).
Definition words_load : res (vm unit * vstat) := load_all demo_fid demo_flist no_powf words_code 12 200 (vm_new tt).
Definition words_vm : vm unit := got_vm words_load.
Definition words_sid (t : str) : Z := got_id (s2i_get (str2id (v_str words_vm)) t).
Definition words_glob {X} (v : vm X) (t : str) : obj := got_obj (gsym_get (v_gsyms v) (words_sid t)).
Definition words_end (g : str -> obj) : Prop :=
  g (bs "a") = OInt 0 /\ g (bs "b") = OInt 3 /\ g (bs "c") = OInt 5 /\ g (bs "n") = OInt 3 /\ string_is (g (bs "x")) (bs "go") /\ string_is (g (bs "y")) (bs "up") /\ string_is (g (bs "z")) (bs "t").
(** It starts with the statements of string.bzz, and satisfies the hypotheses of C106; the machine does what the meaning says. *)
Example C106_C108_case :
  holds_script no_strtof_ words_files (bs "main") words_script /\ (exists i1 i2 i3 i4 r, words_script = string_bzz_with i1 i2 i3 i4 r) /\
  NoDup (map fn_id (functions words_script)) /\ demo_fid "buzzstring_length" <> demo_fid "buzzstring_sub" /\ sm_live (v_str words_vm) < 1000 /\
  done_with (fun st => words_end (s_glob st))
    (run no_strtof_ no_powf words_sid (fun i => i) (functions words_script) (std_cfun demo_c demo_fid) 18 words_script (mkSt (words_glob words_vm) (v_heap words_vm) (v_str words_vm) tt)) /\
  ok_with (fun w => v_state w = S_DONE /\ words_end (words_glob w)) (execute_script demo_flist no_powf (byte words_code) (zlen words_code) 20000 words_vm).
Proof.
  split; [apply (script_of_ok _ _ 4000); vm_compute; reflexivity|]. split; [vm_compute; do 5 eexists; reflexivity|]. split; [apply (NoDup_count_occ' Z.eq_dec); intros x H; vm_compute in H; repeat (destruct H as [<-|H]; [vm_compute; reflexivity|]); destruct H|].
  split; [vm_compute; discriminate|]. split; [vm_compute; reflexivity|]. split; vm_compute; repeat split.
Qed.
