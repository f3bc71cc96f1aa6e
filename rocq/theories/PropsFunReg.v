(** C100: ids of registered C functions. *)
From Verif Require Import Base ListLemmas FunReg.
Local Open Scope Z_scope.
Local Open Scope list_scope.

Lemma find_bounds word f : forall l i, i <= flist_find word f l i <= i + zlen l.
Proof.
  induction l as [|e l IH]; intro i; cbn [flist_find]; unfold zlen in *; cbn [length]; [lia|]. destruct (word f =? e); [lia|]. specialize (IH (i + 1)). lia.
Qed.
Lemma find_none_reg word f : forall l i, ~ In (word f) l -> flist_find word f l i = i + zlen l.
Proof.
  induction l as [|e l IH]; intros i H; cbn [flist_find]; unfold zlen in *; cbn [length]; [lia|].
  destruct (Z.eqb_spec (word f) e) as [E|E]; [exfalso; apply H; left; auto|]. rewrite IH; [lia|]. intro Q. apply H. right. exact Q.
Qed.
Lemma find_hit word f : forall l i, In (word f) l -> exists n, (n < length l)%nat /\ flist_find word f l i = i + Z.of_nat n /\ nth_error l n = Some (word f).
Proof.
  induction l as [|e l IH]; intros i H; [destruct H|]. cbn [flist_find]. destruct (Z.eqb_spec (word f) e) as [E|E].
  - exists O. cbn [length nth_error]. split; [lia|]. split; [lia|congruence].
  - destruct H as [H|H]; [congruence|]. destruct (IH (i + 1) H) as (n & A & B & C). exists (S n). cbn [length nth_error]. split; [lia|]. split; [rewrite B; lia|exact C].
Qed.
Lemma register_fresh word l f : ~ In (word f) l -> fun_register word l f = (l ++ [f], zlen l).
Proof. intro H. unfold fun_register. rewrite (find_none_reg word f l 0 H). rewrite Z.eqb_refl. reflexivity. Qed.

(** Ids that were returned keep calling the same functions. *)
Theorem C100_ids_stay :
  forall word l f i g, fun_called l i = Some g -> fun_called (fst (fun_register word l f)) i = Some g.
Proof.
  intros word l f i g H. unfold fun_register. destruct (flist_find word f l 0 =? zlen l); cbn [fst]; [|exact H].
  unfold fun_called in *. destruct (0 <=? i) eqn:E1; cbn [andb] in *; [|discriminate]. destruct (i <? zlen l) eqn:E2; [|discriminate].
  replace (i <? zlen (l ++ [f])) with true by (unfold zlen in *; rewrite app_length; cbn [length]; lia).
  rewrite nth_error_app1; [exact H|]. unfold zlen in *. lia.
Qed.
Print Assumptions C100_ids_stay.

(** The id that is returned calls the function: when the first bytes of its code are not the address of a registered function. *)
Theorem C100_id_calls :
  forall word l f, ~ In (word f) l -> fun_called (fst (fun_register word l f)) (snd (fun_register word l f)) = Some f.
Proof.
  intros word l f H. rewrite (register_fresh _ _ _ H). cbn [fst snd]. unfold fun_called.
  replace ((0 <=? zlen l) && (zlen l <? zlen (l ++ [f]))) with true by (unfold zlen; rewrite app_length; cbn [length]; lia).
  unfold zlen. rewrite Nat2Z.id, nth_error_app2, Nat.sub_diag; [reflexivity|lia].
Qed.
Print Assumptions C100_id_calls.

(** When they are, another function gets called. *)
Theorem C100_id_calls_refuted :
  forall word l f, In (word f) l -> word f <> f ->
    exists g, g <> f /\ fun_called (fst (fun_register word l f)) (snd (fun_register word l f)) = Some g.
Proof.
  intros word l f H Hne. exists (word f). split; [exact Hne|]. unfold fun_register. destruct (find_hit word f l 0 H) as (n & A & B & C).
  rewrite B. replace (0 + Z.of_nat n =? zlen l) with false by (unfold zlen; lia). cbn [fst snd]. unfold fun_called.
  replace ((0 <=? 0 + Z.of_nat n) && (0 + Z.of_nat n <? zlen l)) with true by (unfold zlen; lia). rewrite Z.add_0_l, Nat2Z.id. exact C.
Qed.
Print Assumptions C100_id_calls_refuted.

(** Registering a function again does not give the id that it has: each registration adds an element, whatever functions were
    registered before. *)
Theorem C100_duplicates_refuted :
  forall word fs l,
    (forall f g, In f fs -> In g (l ++ fs) -> word f <> g) ->
    fun_registers word l fs = (l ++ fs, map (fun i => zlen l + Z.of_nat i) (seq 0 (length fs))).
Proof.
  intros word. induction fs as [|f fs IH]; intros l H; cbn [fun_registers length seq map]; [rewrite app_nil_r; reflexivity|].
  rewrite register_fresh; [|intro Q; exact (H f (word f) (or_introl eq_refl) (in_or_app _ _ _ (or_introl Q)) eq_refl)].
  rewrite IH.
  - rewrite <- app_assoc. cbn [app]. f_equal. f_equal; [lia|]. rewrite <- seq_shift, map_map. apply map_ext. intro i. unfold zlen. rewrite app_length. cbn [length]. lia.
  - intros g k Hg Hk. apply H; [right; exact Hg|]. rewrite <- app_assoc in Hk. exact Hk.
Qed.
Print Assumptions C100_duplicates_refuted.

(** The eight methods of a structure of neighbors, registered by buzzneighbors_new and again by each call of neighbors.map,
    filter, kin and nonkin: [n] calls make the list of functions 8 n longer. *)
Theorem C100_growth_refuted :
  forall word l ms n,
    (forall f g, In f ms -> In g (l ++ ms) -> word f <> g) ->
    zlen (fst (fun_registers word l (concat (repeat ms n)))) = zlen l + Z.of_nat n * zlen ms.
Proof.
  intros word l ms n H. rewrite C100_duplicates_refuted.
  - cbn [fst]. unfold zlen. rewrite app_length. assert (E : length (concat (repeat ms n)) = (n * length ms)%nat).
    { induction n as [|n IH]; cbn [repeat concat]; [reflexivity|]. rewrite app_length, IH. reflexivity. } rewrite E. lia.
  - intros f g Hf Hg. assert (HC : forall x, In x (concat (repeat ms n)) -> In x ms).
    { intros x Hx. apply in_concat in Hx as (y & Hy & Hx). apply repeat_spec in Hy. subst y. exact Hx. }
    apply H; [auto|]. apply in_app_or in Hg as [Hg|Hg]; apply in_or_app; auto.
Qed.
Print Assumptions C100_growth_refuted.

(** Functions at 4096, 4160, ...; their code starts with push %rbp; mov %rsp,%rbp. *)
Definition prologue (a : Z) : Z := 0x2ec8348e5894855 + 0 * a.
Example C100_nontrivial :
  let ms := map (fun i => 4096 + 64 * Z.of_nat i) (seq 0 8) in
  (forall f g, In f ms -> In g ([] ++ ms) -> prologue f <> g) /\
  fun_registers prologue [] ms = (ms, [0; 1; 2; 3; 4; 5; 6; 7]) /\
  zlen (fst (fun_registers prologue ms (concat (repeat ms 1000)))) = 8008 /\
  fun_called (fst (fun_registers prologue [] (ms ++ ms))) 9 = Some 4160.
Proof.
  cbv zeta. assert (H : forall f g, In f (map (fun i => 4096 + 64 * Z.of_nat i) (seq 0 8)) -> In g (map (fun i => 4096 + 64 * Z.of_nat i) (seq 0 8)) -> prologue f <> g).
  { intros f g _ Hg. apply in_map_iff in Hg as (i & <- & Hi). apply in_seq in Hi. unfold prologue. lia. }
  split; [exact H|]. split; [vm_compute; reflexivity|]. split; [|vm_compute; reflexivity].
  rewrite C100_growth_refuted; [reflexivity|]. intros f g Hf Hg. apply H; [exact Hf|]. apply in_app_or in Hg as [Hg|Hg]; exact Hg.
Qed.
