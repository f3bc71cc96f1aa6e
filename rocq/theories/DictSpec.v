(** Specification of dictionaries: a finite map as an association list without duplicate
    keys ([eqb] decides which keys are the same key). *)
From Verif Require Import Base.

Section Spec.
Context {K V : Type}.
Variable eqb : K -> K -> bool.

Definition m_get (m : list (K * V)) (k : K) : option V :=
  match find (fun e => eqb k (fst e)) m with Some e => Some (snd e) | None => None end.
Definition m_without (m : list (K * V)) (k : K) : list (K * V) :=
  filter (fun e => negb (eqb k (fst e))) m.
Definition m_set (m : list (K * V)) (k : K) (v : V) : list (K * V) := m_without m k ++ [(k, v)].

Inductive mop := MSet (k : K) (v : V) | MGet (k : K) | MExists (k : K) | MRemove (k : K)
               | MSize | MForeach.
Inductive mout := MUnit | MVal (v : option V) | MBool (b : bool) | MNum (n : Z)
                | MEntries (l : list (K * V)).

Definition m_step (m : list (K * V)) (o : mop) : list (K * V) * mout :=
  match o with
  | MSet k v => (m_set m k v, MUnit)
  | MGet k => (m, MVal (m_get m k))
  | MExists k => (m, MBool (match m_get m k with Some _ => true | None => false end))
  | MRemove k => (m_without m k, MBool (match m_get m k with Some _ => true | None => false end))
  | MSize => (m, MNum (zlen m))
  | MForeach => (m, MEntries m)
  end.

Fixpoint m_run (m : list (K * V)) (ops : list mop) : list (K * V) * list mout :=
  match ops with
  | [] => (m, [])
  | o :: t => let '(m1, x) := m_step m o in
              let '(m2, xs) := m_run m1 t in (m2, x :: xs)
  end.

(** Answers agree: the order in which foreach visits the entries is not specified; size is
    a 32-bit number. *)
Definition out_agrees (impl spec : mout) : Prop :=
  match impl, spec with
  | MEntries l, MEntries l' => Permutation l l'
  | MNum n, MNum n' => n = n' mod 2 ^ 32
  | a, b => a = b
  end.

(** [eqb] is an equivalence. *)
Definition eqb_equiv : Prop :=
  (forall a, eqb a a = true) /\ (forall a b, eqb a b = eqb b a) /\
  (forall a b c, eqb a b = true -> eqb b c = true -> eqb a c = true).

(** The pairs written by a history. *)
Fixpoint written (ops : list mop) : list (K * V) :=
  match ops with
  | [] => []
  | MSet k v :: t => (k, v) :: written t
  | _ :: t => written t
  end.
End Spec.
Arguments mop K V : clear implicits.
Arguments mout K V : clear implicits.
