(** Lemmas about Text.v. *)
From Verif Require Import Base Text.

Lemma Forall_imp {A} (P Q : A -> Prop) l : Forall P l -> (forall x, P x -> Q x) -> Forall Q l.
Proof. intros H HI. eapply Forall_impl; eauto. Qed.

Lemma digits_spec k : forall n, 0 <= n < 10 ^ Z.of_nat k ->
  Forall (fun c => isdigit c = true) (digits k n) /\ digits_value (digits k n) = n /\ (k <> O -> digits k n <> []).
Proof.
  induction k as [|k IH]; intros n H.
  - cbn [digits]. change (10 ^ Z.of_nat 0) with 1 in H. split; [constructor|]. split; [cbn; lia|tauto].
  - cbn [digits]. rewrite Nat2Z.inj_succ, Z.pow_succ_r in H by lia.
    assert (HD : isdigit (48 + n mod 10) = true).
    { assert (0 <= n mod 10 < 10) by (apply Z.mod_pos_bound; lia). unfold isdigit. lia. }
    destruct (n <? 10) eqn:E.
    + cbn [app]. split; [repeat constructor; auto|]. split; [|discriminate].
      unfold digits_value. cbn [fold_left]. rewrite Z.mod_small by lia. lia.
    + destruct (IH (n / 10)) as (A & B & _). { split; [apply Z.div_pos; lia|apply Z.div_lt_upper_bound; lia]. }
      split; [|split].
      * apply Forall_app. split; auto.
      * unfold digits_value in *. rewrite fold_left_app, B. cbn [fold_left].
        pose proof (Z.div_mod n 10 ltac:(lia)). lia.
      * intros _ HN. apply app_eq_nil in HN as [_ HN]. discriminate.
Qed.
Opaque digits.
Lemma print_u_spec n : 0 <= n < 2 ^ 64 ->
  Forall (fun c => isdigit c = true) (print_u n) /\ digits_value (print_u n) = n /\ print_u n <> [].
Proof.
  intro H. unfold print_u. destruct (digits_spec 20 n) as (A & B & C).
  - assert (2 ^ 64 < 10 ^ Z.of_nat 20) by reflexivity. lia.
  - split; [auto|]. split; auto.
Qed.
Lemma digit_range c : isdigit c = true -> 48 <= c <= 57.
Proof. unfold isdigit. lia. Qed.

Lemma take_while_all f s : Forall (fun c => f c = true) s -> take_while f s = s.
Proof. induction 1 as [|c t H _ IH]; cbn; auto. rewrite H, IH. reflexivity. Qed.
Lemma drop_while_none f c s : f c = false -> drop_while f (c :: s) = c :: s.
Proof. intro H. cbn. rewrite H. reflexivity. Qed.

Lemma parse_digits s : s <> [] -> Forall (fun c => isdigit c = true) s -> parse_number s = Some (false, digits_value s).
Proof.
  intros HN HF. destruct s as [|c t]; [congruence|].
  assert (HR := Forall_inv HF). cbn beta in HR. apply digit_range in HR.
  unfold parse_number. rewrite drop_while_none by (unfold isspace; lia).
  replace (c =? 45) with false by lia. replace (c =? 43) with false by lia.
  rewrite take_while_all by auto. reflexivity.
Qed.
Lemma parse_neg s : s <> [] -> Forall (fun c => isdigit c = true) s -> parse_number (45 :: s) = Some (true, digits_value s).
Proof.
  intros HN HF. unfold parse_number. rewrite drop_while_none by reflexivity. cbn [Z.eqb Pos.eqb].
  rewrite take_while_all by auto. destruct s; [congruence|reflexivity].
Qed.
Lemma strtol_print n : 0 <= n < 2 ^ 63 -> strtol (print_u n) = n.
Proof.
  intro H. destruct (print_u_spec n) as (A & B & C); [lia|]. unfold strtol. rewrite parse_digits by auto. rewrite B. lia.
Qed.
Lemma strtoul_print z : int32_range z -> exists w, strtoul (print_d z) = Some w /\ wrap32 w = wrap32 z.
Proof.
  intro H. unfold int32_range in H. unfold print_d, strtoul. destruct (z <? 0) eqn:E.
  - destruct (print_u_spec (- z)) as (A & B & C); [lia|]. rewrite parse_neg by auto. rewrite B.
    replace (2 ^ 64 <=? - z) with false by lia. eexists. split; [reflexivity|].
    rewrite Z.opp_involutive. unfold wrap32, wrap64. change (2 ^ 64) with (2 ^ 32 * 2 ^ 32).
    rewrite Z.rem_mul_r by lia. rewrite Z.mul_comm, Z_mod_plus_full. rewrite Zmod_mod. reflexivity.
  - destruct (print_u_spec z) as (A & B & C); [lia|]. rewrite parse_digits by auto. rewrite B.
    replace (2 ^ 64 <=? z) with false by lia. eexists. split; reflexivity.
Qed.
Lemma print_d_nonempty z : int32_range z -> print_d z <> [].
Proof. unfold int32_range, print_d. intro H. destruct (z <? 0) eqn:E; [discriminate|]. apply print_u_spec. lia. Qed.
(** No digit of a number is a blank, a comma, a bar or a terminator. *)
Definition plain (c : Z) : Prop := isspace c = false /\ c <> COMMA /\ c <> BAR /\ c <> 0.
Lemma print_u_plain n : 0 <= n < 2 ^ 64 -> Forall plain (print_u n).
Proof. intro H. eapply Forall_imp; [apply (print_u_spec n H)|]. cbn. intros c Hc. apply digit_range in Hc. unfold plain, isspace, COMMA, BAR. repeat split; lia. Qed.
Lemma print_d_plain z : int32_range z -> Forall plain (print_d z).
Proof.
  unfold int32_range, print_d. intro H. destruct (z <? 0) eqn:E; [constructor|]; try (apply print_u_plain; lia).
  unfold plain, isspace, COMMA, BAR. repeat split; lia.
Qed.

Lemma cstr_id s : Forall (fun c => c <> 0) s -> cstr s = s.
Proof. intro H. apply take_while_all. eapply Forall_imp; eauto. cbn. intros c Hc. lia. Qed.

Lemma sep1_none delim s : Forall (fun c => existsb (Z.eqb c) delim = false) s -> sep1 delim s = (s, None).
Proof. induction 1 as [|c t H _ IH]; cbn [sep1]; auto. rewrite H, IH. reflexivity. Qed.
Lemma sep1_some delim s d t : Forall (fun c => existsb (Z.eqb c) delim = false) s -> existsb (Z.eqb d) delim = true ->
  sep1 delim (s ++ d :: t) = (s, Some t).
Proof. induction 1 as [|c u H _ IH]; intro HD; cbn [sep1 app]. - rewrite HD. reflexivity. - rewrite H, IH; auto. Qed.

(** ** Lines *)
Lemma getline_line s r : Forall (fun c => c <> NL) s -> getline (s ++ NL :: r) = (s ++ [NL], r).
Proof. induction 1 as [|c t H _ IH]; cbn [getline app]; [rewrite Z.eqb_refl; reflexivity|]. replace (c =? NL) with false by lia. rewrite IH. reflexivity. Qed.
Lemma lines_concat (ls : list (list Z)) :
  (forall l, In l ls -> exists s, l = s ++ [NL] /\ Forall (fun c => c <> NL) s) ->
  forall fuel, (length (concat ls) <= fuel)%nat -> lines_fuel fuel (concat ls) = ls.
Proof.
  induction ls as [|l ls IH]; intros H fuel HF; [destruct fuel; reflexivity|].
  destruct (H l (or_introl eq_refl)) as (s & -> & HS). cbn [concat] in *. rewrite app_length, app_length in HF. cbn [length] in HF.
  destruct fuel as [|f]; [lia|]. rewrite <- app_assoc. cbn [app].
  remember (s ++ NL :: concat ls) as w eqn:Ew. cbn [lines_fuel]. destruct w as [|c w']; [destruct s; discriminate|].
  rewrite Ew, (getline_line s) by auto. rewrite IH; auto. - intros l Hl. apply H. right. auto. - lia.
Qed.
