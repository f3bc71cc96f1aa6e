(** Common vocabulary of the model.

    Outcomes of modelled C functions.  [Abort]: the C code calls abort() (or exit()).
    [UB]: the C code has undefined behaviour (out-of-bounds access, use of an
    uninitialised or NULL pointer, signed overflow, division by zero, ...).
    [Hang]: the C code does not return (or the explicit fuel of the model ran out;
    theorems always exclude this outcome). *)
From Coq Require Export List ZArith Lia Bool Permutation.
From Coq Require Export ZifyBool ZifyNat ZifyN.
Export ListNotations.
Open Scope Z_scope.

Ltac Zify.zify_post_hook ::= Z.div_mod_to_equations.

Inductive res (A : Type) : Type :=
| Ok (a : A)
| Abort
| UB
| Hang.
Arguments Ok {A} a.
Arguments Abort {A}.
Arguments UB {A}.
Arguments Hang {A}.

Definition bind {A B : Type} (x : res A) (f : A -> res B) : res B :=
  match x with
  | Ok a => f a
  | Abort => Abort
  | UB => UB
  | Hang => Hang
  end.

Notation "x <- e ;; f" := (bind e (fun x => f))
  (at level 61, e at next level, right associativity).
Notation "' p <- e ;; f" := (bind e (fun p => f))
  (at level 61, p pattern, e at next level, right associativity).

Definition is_ok {A} (x : res A) : bool := match x with Ok _ => true | _ => false end.

(** Fixed-width unsigned arithmetic of C. *)
Definition wrap8 (z : Z) : Z := z mod 2 ^ 8.
Definition wrap16 (z : Z) : Z := z mod 2 ^ 16.
Definition wrap32 (z : Z) : Z := z mod 2 ^ 32.
Definition wrap64 (z : Z) : Z := z mod 2 ^ 64.

(** Conversion of a 32-bit pattern to int32_t (two's complement, as gcc/clang do). *)
Definition sign32 (z : Z) : Z :=
  let w := wrap32 z in if w <? 2 ^ 31 then w else w - 2 ^ 32.
Definition int32_range (z : Z) : Prop := - 2 ^ 31 <= z < 2 ^ 31.
Definition int32_rangeb (z : Z) : bool := (- 2 ^ 31 <=? z) && (z <? 2 ^ 31).

Definition zlen {A} (l : list A) : Z := Z.of_nat (length l).

(** Replace the element at index [n] (no change when out of range). *)
Fixpoint upd {A} (l : list A) (n : nat) (x : A) : list A :=
  match l, n with
  | [], _ => []
  | _ :: t, O => x :: t
  | h :: t, S m => h :: upd t m x
  end.

(** Remove the element at index [n]. *)
Fixpoint del {A} (l : list A) (n : nat) : list A :=
  match l, n with
  | [], _ => []
  | _ :: t, O => t
  | h :: t, S m => h :: del t m
  end.

(** Insert [x] before index [n]. *)
Definition ins {A} (l : list A) (n : nat) (x : A) : list A :=
  firstn n l ++ x :: skipn n l.
