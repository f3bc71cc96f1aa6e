(** General list lemmas used by several proof files. *)
From Verif Require Import Base.

Lemma upd_length {A} (l : list A) n x : length (upd l n x) = length l.
Proof. revert n; induction l as [|h t IH]; intros [|n]; simpl; auto. Qed.

Lemma upd_app_l {A} (l r : list A) n x : (n < length l)%nat -> upd (l ++ r) n x = upd l n x ++ r.
Proof.
  revert n; induction l as [|h t IH]; intros [|n] H; simpl in *; try lia; auto.
  rewrite IH by lia; reflexivity.
Qed.

Lemma upd_app_r {A} (l r : list A) n x :
  (length l <= n)%nat -> upd (l ++ r) n x = l ++ upd r (n - length l) x.
Proof.
  revert n; induction l as [|h t IH]; intros n H; simpl in *.
  - rewrite Nat.sub_0_r; reflexivity.
  - destruct n as [|n]; [lia|]. simpl. rewrite IH by lia. reflexivity.
Qed.

Lemma upd_firstn_skipn {A} (l : list A) n x :
  (n < length l)%nat -> upd l n x = firstn n l ++ x :: skipn (S n) l.
Proof.
  revert n; induction l as [|h t IH]; intros [|n] H; simpl in *; try lia; auto.
  rewrite IH by lia; reflexivity.
Qed.

Lemma upd_map {A B} (f : A -> B) l n x : upd (map f l) n (f x) = map f (upd l n x).
Proof. revert n; induction l as [|h t IH]; intros [|n]; simpl; auto. rewrite IH; reflexivity. Qed.

Lemma nth_error_upd_same {A} (l : list A) n x :
  (n < length l)%nat -> nth_error (upd l n x) n = Some x.
Proof. revert n; induction l as [|h t IH]; intros [|n] H; simpl in *; try lia; auto. apply IH; lia. Qed.

Lemma nth_error_upd_other {A} (l : list A) n m x :
  n <> m -> nth_error (upd l n x) m = nth_error l m.
Proof.
  revert n m; induction l as [|h t IH]; intros [|n] [|m] H; simpl in *; try lia; auto;
  try congruence; try (apply IH; lia).
Qed.

Lemma del_firstn_skipn {A} (l : list A) n : del l n = firstn n l ++ skipn (S n) l.
Proof.
  revert n; induction l as [|h t IH]; intros [|n]; simpl; auto.
  rewrite IH. destruct t; reflexivity.
Qed.

Lemma skipn_cons_nth {A} (l : list A) n x :
  nth_error l n = Some x -> skipn n l = x :: skipn (S n) l.
Proof.
  revert n; induction l as [|h t IH]; intros [|n] H; simpl in *; try congruence.
  rewrite (IH _ H). reflexivity.
Qed.

Lemma nth_error_split3 {A} (l : list A) n x :
  nth_error l n = Some x -> l = firstn n l ++ x :: skipn (S n) l.
Proof.
  intro H. rewrite <- (skipn_cons_nth _ _ _ H). symmetry; apply firstn_skipn.
Qed.

Lemma nth_error_lt_some {A} (l : list A) n : (n < length l)%nat -> exists x, nth_error l n = Some x.
Proof.
  intro H. destruct (nth_error l n) eqn:E; [eauto|]. apply nth_error_None in E; lia.
Qed.

Lemma zlen_app {A} (l r : list A) : zlen (l ++ r) = zlen l + zlen r.
Proof. unfold zlen; rewrite app_length; lia. Qed.
Lemma zlen_cons {A} (x : A) l : zlen (x :: l) = zlen l + 1.
Proof. unfold zlen; simpl; lia. Qed.
Lemma zlen_nil {A} : zlen (@nil A) = 0. Proof. reflexivity. Qed.
Lemma zlen_nonneg {A} (l : list A) : 0 <= zlen l. Proof. unfold zlen; lia. Qed.
Lemma zlen_map {A B} (f : A -> B) l : zlen (map f l) = zlen l.
Proof. unfold zlen; rewrite map_length; reflexivity. Qed.

Lemma bind_ok {A B} (x : res A) (f : A -> res B) b :
  bind x f = Ok b -> exists a, x = Ok a /\ f a = Ok b.
Proof. destruct x; simpl; intro H; try discriminate; eauto. Qed.

Lemma firstn_map_some {A} n (l : list A) : firstn n (map Some l) = map Some (firstn n l).
Proof. apply firstn_map. Qed.

Lemma skipn_map {A B} (f : A -> B) n l : skipn n (map f l) = map f (skipn n l).
Proof. revert l; induction n; intros [|a l]; simpl; auto. Qed.

Lemma firstn_S_snoc {A} (l : list A) n x :
  nth_error l n = Some x -> firstn (S n) l = firstn n l ++ [x].
Proof.
  revert n; induction l as [|h t IH]; intros [|n] H; cbn in *; try congruence.
  f_equal. apply IH; exact H.
Qed.

Lemma firstn_map_app {A B} (f : A -> B) l r : firstn (length l) (map f l ++ r) = map f l.
Proof. induction l as [|a l IH]; cbn; [reflexivity|]. rewrite IH; reflexivity. Qed.
Lemma skipn_map_app {A B} (f : A -> B) l r : skipn (length l) (map f l ++ r) = r.
Proof. induction l as [|a l IH]; cbn; [reflexivity|]. exact IH. Qed.
Lemma firstn_len_app {A} (l r : list A) : firstn (length l) (l ++ r) = l.
Proof. induction l as [|a l IH]; cbn; [reflexivity|]. rewrite IH; reflexivity. Qed.
Lemma skipn_len_app {A} (l r : list A) : skipn (length l) (l ++ r) = r.
Proof. induction l as [|a l IH]; cbn; [reflexivity|]. exact IH. Qed.

(** Normalise list concatenations. *)
Ltac apps := cbn [app]; repeat (rewrite <- app_assoc; cbn [app]).
Ltac apps_in H := cbn [app] in H; repeat (rewrite <- app_assoc in H; cbn [app] in H).

Ltac splits := repeat match goal with |- _ /\ _ => split end.

Lemma NoDup_map_in {A B} (f : A -> B) (l : list A) :
  (forall a b, In a l -> In b l -> f a = f b -> a = b) -> NoDup l -> NoDup (map f l).
Proof.
  induction l as [|x t IH]; intros Hf HN; cbn; [constructor|]. inversion HN; subst. constructor.
  - intro H. apply in_map_iff in H as (y & Hy & Hin).
    assert (y = x) by (apply Hf; cbn; auto). subst; auto.
  - apply IH; auto. intros a b Ha Hb. apply Hf; cbn; auto.
Qed.
