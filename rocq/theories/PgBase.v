(** Lemmas for the proof that the parser emits the code of Gen.v: tokens, emission, strings, symbol
    tables. *)
From Coq Require Import String.
From Verif Require Import Base ListLemmas Dict DictSpec DictProofs PDict PDictKeys Strman StrmanProofs Text TextProofs Lex Instr Asm AsmSpec
  Parser ParserFuel Source Gen.
Local Open Scope Z_scope. Local Open Scope list_scope.

Ltac Zify.zify_post_hook ::= idtac.

(** ** Parsing with enough fuel *)
Definition parses (x : nt) (st : pst) (r : pst * pinfo) : Prop := exists n, parse n x st = Ok (Some r).
Lemma parses_at n x st r : parse n x st = Ok (Some r) -> forall k, (n <= k)%nat -> parse k x st = Ok (Some r).
Proof. intros E k H. eapply parse_mono; eauto. discriminate. Qed.
Lemma parses_1 x st r (K : (nt -> pst -> pres) -> Prop) :
  parses x st r -> (forall n, parse n x st = Ok (Some r) -> K (parse n)) -> exists n, K (parse n).
Proof. intros [n E] H. exists n. auto. Qed.
Lemma parses_join x st r x2 st2 r2 : parses x st r -> parses x2 st2 r2 ->
  exists n, parse n x st = Ok (Some r) /\ parse n x2 st2 = Ok (Some r2).
Proof. intros [n E] [m E2]. exists (Nat.max n m). split; eapply parses_at; eauto; lia. Qed.
Lemma parses_join3 x st r x2 st2 r2 x3 st3 r3 : parses x st r -> parses x2 st2 r2 -> parses x3 st3 r3 ->
  exists n, parse n x st = Ok (Some r) /\ parse n x2 st2 = Ok (Some r2) /\ parse n x3 st3 = Ok (Some r3).
Proof. intros [n E] [m E2] [k E3]. exists (Nat.max n (Nat.max m k)). repeat split; eapply parses_at; eauto; lia. Qed.
Lemma parses_join4 x st r x2 st2 r2 x3 st3 r3 x4 st4 r4 : parses x st r -> parses x2 st2 r2 -> parses x3 st3 r3 -> parses x4 st4 r4 ->
  exists n, parse n x st = Ok (Some r) /\ parse n x2 st2 = Ok (Some r2) /\ parse n x3 st3 = Ok (Some r3) /\ parse n x4 st4 = Ok (Some r4).
Proof. intros [n E] [m E2] [k E3] [j E4]. exists (Nat.max (Nat.max n j) (Nat.max m k)). repeat split; eapply parses_at; eauto; lia. Qed.
Lemma parses_S n x st r : Parser.body (parse n) x st = Ok (Some r) -> parses x st r.
Proof. intro H. exists (S n). exact H. Qed.

(** ** Tokens *)
Definition chars_ok (s : str) : Prop := Forall (fun c => c <> NL /\ c <> 0) s.
Definition tok_fine (t : token) : Prop :=
  t_type t <> TOK_EOF /\ t_type t <> TOK_STATEND /\ dbg_ok (Some (t_line t, t_col t, t_file t)) /\ chars_ok (t_value t).
Definition cur (ts : list token) : token := hd eoftok ts.
Definition at_ (st : pst) (ts : list token) : Prop :=
  p_tok st = cur ts /\ filter no_statend (p_rest st) = tl ts /\ Forall tok_fine ts.
Lemma at_ty st ts : at_ st ts -> ty st = t_type (cur ts).
Proof. intros (E & _). unfold ty. rewrite E. reflexivity. Qed.
Definition adv (st : pst) : pst := let '(t, r) := next_tok (p_rest st) in set_tok st t r.
Lemma next_tok_filter l : next_tok l = (cur (filter no_statend l), snd (next_tok l)) /\ filter no_statend (snd (next_tok l)) = tl (filter no_statend l).
Proof.
  induction l as [|t l IH]; [split; reflexivity|]. cbn [next_tok filter]. assert (EN : no_statend t = negb (tok_eqb (t_type t) TOK_STATEND)) by (unfold no_statend; destruct (t_type t); reflexivity).
  rewrite EN. destruct (tok_eqb (t_type t) TOK_STATEND); cbn [negb]; [exact IH|split; reflexivity].
Qed.
Lemma fetch_adv st ts k : at_ st ts -> ts <> [] -> fetch st k = k (adv st).
Proof.
  intros (E & _ & HF) HN. unfold fetch, adv, ty. rewrite E. destruct ts as [|t ts]; [congruence|]. cbn [cur hd]. inversion HF as [|? ? (HT & _) _]; subst.
  destruct (next_tok (p_rest st)) as [t' r]. destruct (t_type t); try reflexivity. congruence.
Qed.
Lemma at_adv st t ts : at_ st (t :: ts) -> at_ (adv st) ts.
Proof.
  intros (E & ER & HF). cbn [tl] in ER. inversion HF; subst. destruct (next_tok_filter (p_rest st)) as [E1 E2]. unfold adv. rewrite E1.
  cbn [set_tok]. split; [|split]; auto.
Qed.
Lemma adv_tok st : exists t r, adv st = set_tok st t r.
Proof. unfold adv. destruct (next_tok (p_rest st)) as [t r]. eauto. Qed.
Lemma adv_labels st : p_labels (adv st) = p_labels st. Proof. destruct (adv_tok st) as (t & r & ->). reflexivity. Qed.
Lemma adv_strs st : p_strs (adv st) = p_strs st. Proof. destruct (adv_tok st) as (t & r & ->). reflexivity. Qed.
Lemma adv_symst st : p_symst (adv st) = p_symst st. Proof. destruct (adv_tok st) as (t & r & ->). reflexivity. Qed.
Lemma adv_chunks st : p_chunks (adv st) = p_chunks st. Proof. destruct (adv_tok st) as (t & r & ->). reflexivity. Qed.
Lemma adv_code st : p_code (adv st) = p_code st. Proof. destruct (adv_tok st) as (t & r & ->). reflexivity. Qed.
Lemma tok_eqb_refl t : tok_eqb t t = true. Proof. destruct t; reflexivity. Qed.
Lemma tok_eqb_neq a b : a <> b -> tok_eqb a b = false. Proof. destruct a, b; try reflexivity; congruence. Qed.
(** Changes of the other fields. *)
Lemma at_same st st' ts : at_ st ts -> p_tok st' = p_tok st -> p_rest st' = p_rest st -> at_ st' ts.
Proof. intros (E & ER & HF) E1 E2. split; [|split]; congruence. Qed.

(** ** Emission *)
Definition setdbg (d : option position) (l : aline) : aline :=
  match l with L_instr o a _ => L_instr o a d | L_label n _ => L_label n d | _ => l end.
Definition nodbg (l : aline) : aline := setdbg None l.
Definition dbg_of (l : aline) : option position := match l with L_instr _ _ d | L_label _ d => d | _ => None end.
Definition dbg_fine (l : aline) : Prop := dbg_ok (dbg_of l).
Definition appends (a b : list Z) (code : list aline) : Prop :=
  exists ls, b = a ++ text ls /\ map nodbg ls = code /\ Forall dbg_fine ls.
Definition adds (st st' : pst) (code : list aline) : Prop := appends (p_code st) (p_code st') code.
Lemma text_app a b : text (a ++ b) = text a ++ text b.
Proof. unfold text. rewrite map_app, concat_app. reflexivity. Qed.
Lemma app_nil_code a : appends a a []. Proof. exists []. cbn. rewrite app_nil_r. auto. Qed.
Lemma appends_app a b c x y : appends a b x -> appends b c y -> appends a c (x ++ y).
Proof.
  intros (l & -> & <- & H1) (l2 & -> & <- & H2). exists (l ++ l2). rewrite text_app, app_assoc, map_app. split; auto. split; auto.
  apply Forall_app; auto.
Qed.
Definition tokpos (t : token) : position := (t_line t, t_col t, if tok_eqb (t_type t) TOK_EOF then bs "(null)" else t_file t).
(** [txt] is the text of the line without debug information and without the end of line. *)
Definition spelled (l : aline) (txt : list Z) : Prop := forall d, line_text (setdbg d l) = txt ++ dbg_text d ++ [NL].
Lemma spelled_i0 o name : bs name = opname o -> spelled (ins o) (i0 name).
Proof. intros E d. cbn. rewrite E. reflexivity. Qed.
Lemma spelled_i1 o a name t : bs name = opname o -> arg_txt a = SP :: t -> spelled (L_instr o a None) (i1 name t).
Proof. intros E E2 d. cbn [setdbg line_text]. rewrite E2. unfold i1. rewrite E. cbn [app]. f_equal. rewrite <- !app_assoc. reflexivity. Qed.
Lemma spelled_lab n : spelled (lab n) (labref n).
Proof. intros d. cbn [lab setdbg line_text]. reflexivity. Qed.
Lemma line_at t l txt : spelled l txt -> code_line t txt = line_text (setdbg (Some (tokpos t)) l).
Proof. intros H. rewrite H. unfold code_line. f_equal. Qed.
Lemma nodbg_set d l : nodbg (setdbg d l) = nodbg l. Proof. destruct l; reflexivity. Qed.
Definition plain_line (l : aline) : Prop := match l with L_instr _ _ None | L_label _ None => True | _ => False end.
Lemma tokpos_fine st ts : at_ st ts -> dbg_ok (Some (tokpos (p_tok st))).
Proof.
  intros (E & _ & HF). rewrite E. destruct ts as [|t ts]; cbn [cur hd].
  - cbn. repeat split; try lia; try reflexivity.
    + repeat constructor; discriminate.
    + intros g x HE. destruct (@app_inj_tail Z g [40; 110; 117; 108; 108] x 41) as [_ ->]; [symmetry; exact HE|reflexivity].
  - inversion HF as [|? ? (HT & _ & HD & _) _]; subst. unfold tokpos. rewrite tok_eqb_neq by auto. exact HD.
Qed.
Lemma appends_line st ts l txt a : at_ st ts -> spelled l txt -> plain_line l -> appends a (a ++ code_line (p_tok st) txt) [l].
Proof.
  intros HA HS HP. exists [setdbg (Some (tokpos (p_tok st))) l]. rewrite (line_at _ _ _ HS). unfold text. cbn [map concat]. rewrite app_nil_r.
  split; auto. split.
  - f_equal. rewrite nodbg_set. destruct l as [| |n [d|]|o x [d|]|]; try contradiction; reflexivity.
  - constructor; [|constructor]. unfold dbg_fine. destruct l; cbn [setdbg dbg_of]; try exact I; eapply tokpos_fine; eauto.
Qed.
Lemma emit_adds st ts l txt : at_ st ts -> spelled l txt -> plain_line l -> adds st (emit st txt) [l].
Proof. intros. unfold adds, emit. cbn [p_code set_code]. eapply appends_line; eauto. Qed.
Lemma emit_at st ts txt : at_ st ts -> at_ (emit st txt) ts.
Proof. intro H. eapply at_same; eauto. Qed.
