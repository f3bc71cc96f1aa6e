(** Properties C19-C20: garbage collection and cloning. *)
From Verif Require Import Base ListLemmas Float Dict DictSpec PDict DictProofs PDictKeys BSet Strman StrmanSpec StrmanProofs Obj Heap HeapSpec HeapProofs HeapClone.

(** The string with this id is protected from collection. *)
Definition protected (sm : strman) (i : Z) (s : str) : Prop := i2s_get (id2str sm) i = Some (s, true).

(** C19.  After every history of allocations, table writes, clones and collections, a
    collection never touches freed memory and ends; below the threshold it does nothing;
    otherwise the objects that remain are exactly those reachable from the roots, with their
    contents; all others are freed; a string keeps its id exactly when it is protected, a
    root, or the text of a reachable string object.  The 16-bit marker may wrap any number of
    times. *)
Theorem C19_gc_keeps_exactly_reachable :
  forall malloc, good_malloc malloc -> forall ops h r,
  hist_ok malloc heap_new ops -> hrun malloc heap_new ops = Ok h ->
  (forall p, is_root r p -> live h p) -> (forall i, is_root_str r i -> 0 <= i < 65536) ->
  exists h', h_gc h r = Ok h' /\
    (zlen (h_objs h) < h_max h -> h' = h) /\
    (h_max h <= zlen (h_objs h) ->
       (forall p, live h' p <-> reach (h_mem h) (is_root r) p) /\
       (forall p c, h_mem h p = Some c -> reach (h_mem h) (is_root r) p -> exists mk, h_mem h' p = Some (mkCell (c_kind c) mk)) /\
       (forall p, ~ reach (h_mem h) (is_root r) p -> h_mem h' p = None) /\
       (forall i s, 0 <= i < 65536 ->
          (sm_get (h_str h') i = Some s <->
           sm_get (h_str h) i = Some s /\
           (protected (h_str h) i s \/ is_root_str r i \/
            exists p c, h_mem h p = Some c /\ c_kind c = KStr i s /\ reach (h_mem h) (is_root r) p))) /\
       (forall p c i s, h_mem h' p = Some c -> c_kind c = KStr i s -> sm_get (h_str h') i = Some s)).
Proof.
  intros malloc Hmal ops h r HO HE HR HRS.
  pose proof (hrun_inv malloc Hmal ops _ _ HInv_new HO HE) as HI.
  destruct (Z_lt_le_dec (zlen (h_objs h)) (h_max h)) as [Hc|Hc].
  - exists h. unfold h_gc. destruct (_ <? _) eqn:EX; [|lia]. split; [reflexivity|split; [auto|intro; exfalso; lia]].
  - destruct (gc_spec h r HI HR HRS Hc) as (h' & keep & E & HI' & HO' & HK & HS & HN & ids & EG & HIds).
    exists h'. split; [auto|]. split; [lia|]. intros _.
    destruct (hi_strs h HI) as (M & S1 & S2 & S3).
    assert (HRL : forall p, reach (h_mem h) (is_root r) p -> In p (h_objs h)).
    { intros p Hp. induction Hp as [p Hp|p c q Hp IH Ep Hq]; [apply HR; auto|]. eapply (hi_refs h HI); eauto. }
    assert (Hid : forall i s q, M s = Some (i, q) -> 0 <= i < 65536) by (intros; eapply (si_rng _ _ S1); eauto).
    assert (HF : Forall (fun i => 0 <= i < 65536) ids).
    { apply Forall_forall. intros i Hi. apply HIds in Hi as [Hi|(p & c & s & Ep & Kp & _)]; auto.
      destruct (S3 p c i s Ep Kp) as (q & Hq). eapply Hid; eauto. }
    destruct (gc_ok (h_str h) M ids S1 S2 HF) as (sm' & M' & EG' & [_ HS'] & S1' & _).
    rewrite EG in EG'. inversion EG'; subst sm'. clear EG'.
    assert (HG : forall i s, 0 <= i < 65536 -> (sm_get (h_str h) i = Some s <-> exists q, M s = Some (i, q))).
    { intros i s Hi. destruct (get_ok _ _ i S1 Hi) as [(x & Hx & H1) _]. inversion Hx; subst. apply H1. }
    assert (HG' : forall i s, 0 <= i < 65536 -> (sm_get (h_str h') i = Some s <-> exists q, M' s = Some (i, q))).
    { intros i s Hi. destruct (get_ok _ _ i S1' Hi) as [(x & Hx & H1) _]. inversion Hx; subst. apply H1. }
    split; [|split; [|split; [|split]]]; auto.
    + intro p. unfold live. rewrite HO', filter_In. split.
      * intros [H1 H2]. apply HK; auto.
      * intro H1. split; [auto|]. apply HK; auto.
    + intros p c Ep Hp. eexists. eapply HS; eauto.
    + intros i s Hi. rewrite HG', HG by auto. rewrite HS'. split.
      * intros (q & H1). destruct (M s) as [[j q0]|] eqn:EM; [|discriminate].
        destruct (q0 || existsb (Z.eqb j) ids) eqn:EB; [|discriminate]. inversion H1; subst j q0. split; [eauto|].
        apply orb_true_iff in EB as [->|EB].
        -- left. unfold protected. apply (si_i2s _ _ S1); auto.
        -- right. apply existsb_exists in EB as (j & Hj & Ej). assert (i = j) by lia. subst j.
           apply HIds in Hj as [Hj|(p & c & s' & Ep & Kp & Rp)]; [auto|]. right. exists p, c. splits; auto.
           destruct (S3 p c i s' Ep Kp) as (q' & Hq'). 
           assert (A1 : sm_get (h_str h) i = Some s') by (apply HG; eauto).
           assert (A2 : sm_get (h_str h) i = Some s) by (apply HG; eauto). congruence.
      * intros [(q & H1) H2]. rewrite H1. exists q.
        assert (HB : q || existsb (Z.eqb i) ids = true).
        { destruct H2 as [H2|[H2|(p & c & Ep & Kp & Rp)]].
          - unfold protected in H2. apply (si_i2s _ _ S1) in H2; auto. rewrite H1 in H2. inversion H2; auto.
          - apply orb_true_iff. right. apply existsb_exists. exists i. split; [apply HIds; auto|lia].
          - apply orb_true_iff. right. apply existsb_exists. exists i. split; [apply HIds; eauto 9|lia]. }
        rewrite HB. reflexivity.
    + intros p c i s Ep Kp. destruct (hi_strs h' HI') as (M2 & T1 & T2 & T3). destruct (T3 p c i s Ep Kp) as (q & Hq).
      assert (Hi : 0 <= i < 65536) by (eapply (si_rng _ _ T1); eauto).
      destruct (get_ok _ _ i T1 Hi) as [(x & Hx & H1) _]. inversion Hx; subst. apply H1. eauto.
Qed.
Print Assumptions C19_gc_keeps_exactly_reachable.

(** Two tables that refer to each other, one on the stack; an unreachable pair likewise; a
    string in each table. *)
Definition gc_hist : list hop :=
  [HString [65] false; HString [66] false; HAlloc (KTab (pnew 10)); HAlloc (KTab (pnew 10));
   HAlloc (KTab (pnew 10)); HAlloc (KTab (pnew 10));
   HWrite 3 (upd (pnew 10) 0 [(1, 4)]); HWrite 4 (upd (pnew 10) 0 [(1, 3)]);
   HWrite 5 (upd (pnew 10) 1 [(2, 6)]); HWrite 6 (upd (pnew 10) 1 [(2, 5)])].
(** Checking that a history is admissible by computation. *)
Definition kids (k : kind) : list ptr :=
  match k with KTab bs => flat_map (fun e => [fst e; snd e]) (concat bs) | KClos _ _ ar => ar | _ => [] end.
Lemma kids_spec k q : refers k q -> In q (kids k).
Proof.
  destruct k; cbn; auto; try tauto. intros (a & b & H & Hq). apply in_flat_map. exists (a, b). split; auto. cbn. destruct Hq as [-> | ->]; auto.
Qed.
Definition liveb (h : heap) (p : ptr) : bool := existsb (Z.eqb p) (h_objs h).
Lemma liveb_spec h p : liveb h p = true -> live h p.
Proof. unfold liveb. rewrite existsb_exists. intros (x & Hx & He). assert (p = x) by lia. subst; auto. Qed.
Definition hop_okb (h : heap) (o : hop) : bool :=
  match o with
  | HAlloc k => forallb (liveb h) (kids k) && match k with KStr _ _ => false | _ => true end
  | HString _ _ => sm_live (h_str h) <? 65534
  | HWrite p bs => forallb (liveb h) (kids (KTab bs)) && match h_mem h p with Some (mkCell (KTab _) _) => true | _ => false end
  | HClone _ p => liveb h p
  | HGc r => forallb (fun i => match i with IObj p => liveb h p | IStr s => (0 <=? s) && (s <? 65536) end) (root_items r)
  end.
Fixpoint hist_okb (malloc : list ptr -> ptr) (h : heap) (ops : list hop) : bool :=
  match ops with
  | [] => true
  | o :: t => hop_okb h o && match hstep malloc h o with Ok h1 => hist_okb malloc h1 t | _ => true end
  end.
Lemma hist_okb_ok malloc ops : forall h, hist_okb malloc h ops = true -> hist_ok malloc h ops.
Proof.
  assert (HK : forall h k, forallb (liveb h) (kids k) = true -> forall q, refers k q -> live h q).
  { intros h k H q Hq. rewrite forallb_forall in H. apply liveb_spec, H, kids_spec; auto. }
  induction ops as [|o t IH]; intros h H; [exact I|]. cbn [hist_okb hist_ok] in *. apply andb_true_iff in H as [H1 H2].
  split; [|destruct (hstep malloc h o); auto].
  clear IH H2. destruct o as [k|s prot|p bs|fuel p|r]; cbn [hop_okb hop_ok] in *.
  - apply andb_true_iff in H1 as [H1 H2]. split; [apply HK; auto|]. intros i s ->. discriminate.
  - lia.
  - apply andb_true_iff in H1 as [H1 H2]. split; [apply HK; auto|]. destruct (h_mem h p) as [[[| | |] mk]|]; try discriminate. eauto.
  - apply liveb_spec; auto.
  - rewrite forallb_forall in H1. split.
    + intros p Hp. apply root_items_spec in Hp. apply H1 in Hp. apply liveb_spec; auto.
    + intros i Hi. apply root_items_strs in Hi. apply H1 in Hi. lia.
Qed.
Definition gc_roots : roots := mkRoots [] [[3]] [] [] [] [] [] [].
Example C19_ex : hist_ok bump heap_new gc_hist /\
  exists h h', hrun bump heap_new gc_hist = Ok h /\ h_objs h = [1; 2; 3; 4; 5; 6] /\
  (forall p, is_root gc_roots p -> live h p) /\ h_max h <= zlen (h_objs h) /\
  h_gc h gc_roots = Ok h' /\ h_objs h' = [1; 3; 4] /\ sm_get (h_str h') 0 = Some [65] /\ sm_get (h_str h') 1 = None.
Proof.
  split; [apply hist_okb_ok; vm_compute; reflexivity|].
  eexists _, _. split; [vm_compute; reflexivity|]. split; [reflexivity|]. split.
  { intros p Hp. apply root_items_spec in Hp. destruct Hp as [Hp|[]]. inversion Hp; subst. cbn. tauto. }
  split; [discriminate|]. split; [vm_compute; reflexivity|]. splits; vm_compute; reflexivity.
Qed.

(** C20.  The clone of an acyclic object whose tables are well formed: the originals are
    unchanged; the clone is structurally equal to the original; every object reachable from
    it through tables is new; so no later change to old objects affects the clone, and no
    change to new objects affects the original.  (Missing: closures, see below.) *)
Theorem C20_clone_equal_and_independent_partial :
  forall malloc, good_malloc malloc -> forall ops h o,
  hist_ok malloc heap_new ops -> hrun malloc heap_new ops = Ok h -> cloneable (h_mem h) o ->
  exists n, forall fuel, (n <= fuel)%nat ->
  exists h' x, h_clone malloc fuel h o = Ok (h', x) /\
    (forall p, live h p -> live h' p /\ h_mem h' p = h_mem h p) /\
    same (h_mem h) (h_mem h') o x /\
    (forall y, treach (h_mem h') x y -> ~ live h y /\ live h' y) /\
    (forall m, (forall p, ~ live h p -> m p = h_mem h' p) -> same (h_mem h) m o x) /\
    (forall m, (forall p, live h p -> m p = h_mem h' p) -> same (h_mem h) m o o).
Proof.
  intros malloc Hmal ops h o HO HE HC.
  pose proof (hrun_inv malloc Hmal ops _ _ HInv_new HO HE) as HI.
  destruct (clone_ok malloc Hmal (h_mem h) o HC) as (n & Hn). exists n. intros fuel Hf.
  destruct (Hn fuel h Hf HI (fun _ _ H => H)) as (h' & x & E & HI' & X & S & R).
  exists h', x. split; [auto|]. split; [|split; [auto|split; [auto|split]]].
  - intros p Hp. split; [eapply ext_in; eauto|]. apply X; auto.
  - intros m Hm. eapply same_frame; eauto. intros y Hy. apply Hm. apply R; auto.
  - intros m Hm. assert (Hm' : forall p c, h_mem h p = Some c -> m p = Some c).
    { intros p c Ep. assert (Hp : live h p) by (apply (hi_dom h HI); congruence). rewrite Hm by auto.
      destruct X as (_ & X & _). rewrite X; auto. }
    clear -HC Hm'. induction HC as [p c E K|p c bs E K T HK IHK HD IHD].
    + eapply same_leaf; eauto.
    + apply (same_tab _ _ p p c c bs bs); auto.
      * intros i j k d k' d' H1 H2. rewrite H1 in H2. inversion H2; subst. eapply (IHK k' d').
        apply nth_error_In in H1. apply in_concat. exists (nth i bs []). split; auto. apply nth_In.
        destruct (Nat.lt_ge_cases i (length bs)); auto. rewrite nth_overflow in H1 by auto. destruct H1.
      * intros i j k d k' d' H1 H2. rewrite H1 in H2. inversion H2; subst. eapply (IHD k' d').
        apply nth_error_In in H1. apply in_concat. exists (nth i bs []). split; auto. apply nth_In.
        destruct (Nat.lt_ge_cases i (length bs)); auto. rewrite nth_overflow in H1 by auto. destruct H1.
Qed.
Print Assumptions C20_clone_equal_and_independent_partial.

(** A table {1: {"A": 2}, 3: 2} (the integer 2 shared). *)
Definition clone_hist : list hop :=
  [HString [65] false; HAlloc (KVal (OInt 1)); HAlloc (KVal (OInt 2)); HAlloc (KVal (OInt 3));
   HAlloc (KTab (upd (pnew 10) 0 [(1, 3)])); HAlloc (KTab (upd (upd (pnew 10) 1 [(2, 5)]) 3 [(4, 3)]))].

Example C20_ex : hist_ok bump heap_new clone_hist /\
  exists h, hrun bump heap_new clone_hist = Ok h /\ cloneable (h_mem h) 6.
Proof.
  split; [apply hist_okb_ok; vm_compute; reflexivity|]. eexists. split; [vm_compute; reflexivity|].
  assert (HL : forall (m : mem) p c, m p = Some c -> match c_kind c with KTab _ => False | _ => True end -> cloneable m p).
  { intros m p c E K. eapply cl_leaf; eauto. intros bs Hbs. rewrite Hbs in K. exact K. }
  eapply cl_tab; [reflexivity|reflexivity| | |].
  - split; [reflexivity|]. split.
    + intros i k d Hi. do 10 (destruct i as [|i]; [cbn in Hi; repeat destruct Hi as [Hi|Hi]; try inversion Hi; subst; eexists; split; vm_compute; reflexivity|]). destruct i; destruct Hi.
    + intros i j1 j2 e1 e2. do 10 (destruct i as [|i]; [destruct j1 as [|[|]], j2 as [|[|]]; cbn; try discriminate; try lia|]). destruct i, j1; discriminate.
  - intros k d Hi. cbn in Hi. repeat destruct Hi as [Hi|Hi]; try inversion Hi; subst; eapply HL; try reflexivity; exact I.
  - intros k d Hi. cbn in Hi. destruct Hi as [Hi|[Hi|[]]]; inversion Hi; subst; [|eapply HL; [reflexivity|exact I]].
    eapply cl_tab; [reflexivity|reflexivity| | |].
    + split; [reflexivity|]. split.
      * intros i k0 d0 Hi0. do 10 (destruct i as [|i]; [cbn in Hi0; repeat destruct Hi0 as [Hi0|Hi0]; try inversion Hi0; subst; eexists; split; vm_compute; reflexivity|]). destruct i; destruct Hi0.
      * intros i j1 j2 e1 e2. do 10 (destruct i as [|i]; [destruct j1 as [|[|]], j2 as [|[|]]; cbn; try discriminate; try lia|]). destruct i, j1; discriminate.
    + intros k0 d0 Hi0. cbn in Hi0. repeat destruct Hi0 as [Hi0|Hi0]; try inversion Hi0; subst; eapply HL; try reflexivity; exact I.
    + intros k0 d0 Hi0. cbn in Hi0. repeat destruct Hi0 as [Hi0|Hi0]; try inversion Hi0; subst; eapply HL; try reflexivity; exact I.
Qed.

(** Closures: the clone shares the captured variables with the original, so writes to a
    captured table through the original are seen through the clone. *)
Theorem C20_closure_state_shared_refuted :
  exists ops h h' x c y, hist_ok bump heap_new ops /\ hrun bump heap_new ops = Ok h /\
    h_clone bump 2 h 2 = Ok (h', x) /\ x <> 2 /\ h_mem h' x = Some c /\ refers (c_kind c) y /\ live h y /\
    exists bs mk, h_mem h' y = Some (mkCell (KTab bs) mk).
Proof.
  exists [HAlloc (KTab (pnew 10)); HAlloc (KClos false 0 [1])].
  eexists _, _, 3, _, 1. split; [apply hist_okb_ok; vm_compute; reflexivity|].
  split; [vm_compute; reflexivity|]. split; [vm_compute; reflexivity|]. split; [discriminate|].
  split; [vm_compute; reflexivity|]. split; [left; reflexivity|]. split; [left; reflexivity|].
  eexists _, _. vm_compute; reflexivity.
Qed.
Print Assumptions C20_closure_state_shared_refuted.

(** Tables with keys of several types: t["1"] = 7; t[1.0] = 8; t[1] = 9 leaves the two
    entries 1.0 and 1 (see C18); the clone has one. *)
Theorem C20_mixed_keys_refuted :
  exists ops h t1 t2 t3 h' x bs mk, hist_ok bump heap_new ops /\ hrun bump heap_new ops = Ok h /\
    rset (phash (h_mem h)) (pcmp (h_mem h)) (pnew 10) 2 3 = Ok t1 /\
    rset (phash (h_mem h)) (pcmp (h_mem h)) t1 4 3 = Ok t2 /\
    rset (phash (h_mem h)) (pcmp (h_mem h)) t2 5 3 = Ok t3 /\
    h_clone bump 3 (h_store h 6 (KTab t3)) 6 = Ok (h', x) /\
    h_mem h' x = Some (mkCell (KTab bs) mk) /\ length (concat t3) = 2%nat /\ length (concat bs) = 1%nat.
Proof.
  exists [HString [48] false; HString [49] false; HAlloc (KVal ONil); HAlloc (KVal (OFloat (f_of_Z 1)));
          HAlloc (KVal (OInt 1)); HAlloc (KTab (pnew 10))].
  eexists _, _, _, _, _, 7, _, _.
  split; [apply hist_okb_ok; vm_compute; reflexivity|].
  split; [vm_compute; reflexivity|]. split; [vm_compute; reflexivity|]. split; [vm_compute; reflexivity|].
  split; [vm_compute; reflexivity|]. split; [vm_compute; reflexivity|]. split; [vm_compute; reflexivity|].
  split; reflexivity.
Qed.
Print Assumptions C20_mixed_keys_refuted.
