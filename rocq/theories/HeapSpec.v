(** Specification of garbage collection and cloning: roots, reachability, histories. *)
From Verif Require Import Base Float Dict PDict Strman StrmanSpec Obj Heap.

(** The objects the VM itself refers to. *)
Definition is_root (r : roots) (p : ptr) : Prop :=
  In p (r_gsyms r) \/
  (exists s, In s (r_stacks r) /\ In p s) \/
  (exists s, In s (r_lsyms r) /\ In p s) \/
  (exists v, In v (r_vstigs r) /\
     (v_onconflict v = Some p \/ v_onconflictlost v = Some p \/
      exists k d, In (k, d) (v_elems v) /\ (p = k \/ p = d))) \/
  (exists t, In (t, p) (r_listeners r)) \/
  (exists k d, (In (k, d) (r_broadcasts r) \/ In (k, d) (r_puts r) \/ In (k, d) (r_queries r)) /\ (p = k \/ p = d)).
(** The strings it refers to by id: the topics listened to. *)
Definition is_root_str (r : roots) (i : Z) : Prop := exists p, In (i, p) (r_listeners r).

(** What an object refers to: keys and values of a table, captured variables of a closure. *)
Definition refers (k : kind) (q : ptr) : Prop :=
  match k with
  | KTab bs => exists a b, In (a, b) (concat bs) /\ (q = a \/ q = b)
  | KClos _ _ ar => In q ar
  | _ => False
  end.
Inductive reach (m : mem) (R : ptr -> Prop) : ptr -> Prop :=
| reach_root p : R p -> reach m R p
| reach_step p c q : reach m R p -> m p = Some c -> refers (c_kind c) q -> reach m R q.

(** Histories of a heap.  [HAlloc k]: a new object (other than a string) with contents k;
    [HString s prot]: a string is registered and an object made for it; [HWrite p bs]: the
    contents of a table are replaced; [HClone p]; [HGc r]. *)
Inductive hop :=
| HAlloc (k : kind)
| HString (s : str) (prot : bool)
| HWrite (p : ptr) (bs : pdict ptr ptr)
| HClone (fuel : nat) (p : ptr)
| HGc (r : roots).

Section Run.
Variable malloc : list ptr -> ptr.
Definition hstep (h : heap) (o : hop) : res heap :=
  match o with
  | HAlloc k => Ok (fst (h_newobj malloc h k))
  | HString s prot =>
      '(sm, id) <- sm_register sm_fuel (h_str h) s prot ;;
      Ok (fst (h_newobj malloc (mkHeap (h_mem h) (h_objs h) (h_max h) (h_marker h) sm) (KStr id s)))
  | HWrite p bs => Ok (h_store h p (KTab bs))
  | HClone fuel p => '(h', _) <- h_clone malloc fuel h p ;; Ok h'
  | HGc r => h_gc h r
  end.
Fixpoint hrun (h : heap) (ops : list hop) : res heap :=
  match ops with [] => Ok h | o :: t => h1 <- hstep h o ;; hrun h1 t end.

(** The program only handles objects it can still name: references stored are to objects in
    the heap (never freed ones); fewer than 65534 strings are live before a registration. *)
Definition live (h : heap) (p : ptr) : Prop := In p (h_objs h).
Definition hop_ok (h : heap) (o : hop) : Prop :=
  match o with
  | HAlloc k => (forall q, refers k q -> live h q) /\ (forall i s, k <> KStr i s)
  | HString _ _ => sm_live (h_str h) < 65534
  | HWrite p bs => (forall q, refers (KTab bs) q -> live h q) /\
                   exists bs' mk, h_mem h p = Some (mkCell (KTab bs') mk)
  | HClone _ p => live h p
  | HGc r => (forall p, is_root r p -> live h p) /\ (forall i, is_root_str r i -> 0 <= i < 65536)
  end.
Fixpoint hist_ok (h : heap) (ops : list hop) : Prop :=
  match ops with
  | [] => True
  | o :: t => hop_ok h o /\ match hstep h o with Ok h1 => hist_ok h1 t | _ => True end
  end.
End Run.

(** An allocator never returns the address of a live block. *)
Definition good_malloc (malloc : list ptr -> ptr) : Prop := forall l, ~ In (malloc l) l.
(** One such allocator. *)
Definition bump (l : list ptr) : ptr := fold_right Z.max 0 l + 1.

(** ** Cloning *)

(** Reachable through tables only. *)
Definition tstep (m : mem) (p q : ptr) : Prop :=
  exists c bs, m p = Some c /\ c_kind c = KTab bs /\ refers (KTab bs) q.
Inductive treach (m : mem) : ptr -> ptr -> Prop :=
| tr_refl p : treach m p p
| tr_step p q r : tstep m p q -> treach m q r -> treach m p r.

(** Well-formed table: each key sits in the bucket of its hash and is comparable with, and
    different from, the keys before it in the bucket. *)
Definition tab_ok (m : mem) (bs : pdict ptr ptr) : Prop :=
  0 < zlen bs /\
  (forall i k d, In (k, d) (nth i bs []) -> exists z, phash m k = Ok z /\ Z.to_nat (z mod zlen bs) = i) /\
  (forall i j1 j2 e1 e2, nth_error (nth i bs []) j1 = Some e1 -> nth_error (nth i bs []) j2 = Some e2 -> (j1 < j2)%nat ->
     exists c, pcmp m (fst e2) (fst e1) = Ok c /\ c <> 0).

(** Acyclic objects (well-founded through tables), all tables well formed. *)
Inductive cloneable (m : mem) : ptr -> Prop :=
| cl_leaf p c : m p = Some c -> (forall bs, c_kind c <> KTab bs) -> cloneable m p
| cl_tab p c bs : m p = Some c -> c_kind c = KTab bs -> tab_ok m bs ->
    (forall k d, In (k, d) (concat bs) -> cloneable m k) ->
    (forall k d, In (k, d) (concat bs) -> cloneable m d) -> cloneable m p.

(** Structural equality of p in memory m and p' in memory m': same scalars, same strings, the
    same closure with the same captured objects; tables with the same buckets, whose keys and
    values are structurally equal. *)
Inductive same (m m' : mem) : ptr -> ptr -> Prop :=
| same_leaf p p' c c' : m p = Some c -> m' p' = Some c' -> c_kind c = c_kind c' ->
    (forall bs, c_kind c <> KTab bs) -> same m m' p p'
| same_tab p p' c c' bs bs' : m p = Some c -> m' p' = Some c' -> c_kind c = KTab bs -> c_kind c' = KTab bs' ->
    length bs = length bs' -> (forall i, length (nth i bs []) = length (nth i bs' [])) ->
    (forall i j k d k' d', nth_error (nth i bs []) j = Some (k, d) -> nth_error (nth i bs' []) j = Some (k', d') -> same m m' k k') ->
    (forall i j k d k' d', nth_error (nth i bs []) j = Some (k, d) -> nth_error (nth i bs' []) j = Some (k', d') -> same m m' d d') ->
    same m m' p p'.
