(** A network of robots sharing virtual stigmergies.  This is the environment of the code:
    each robot runs the model of Vstig.v; [links i j] tells that robot [j] hears robot [i]; a
    message sent by [i] is put in the inbox of every robot that hears it, and each robot takes
    messages from its inbox in any order. *)
From Verif Require Import Base Strman Obj ObjSpec OutMsg Vstig VstigSpec.

Record net := { n_st : nat -> vstate; n_box : nat -> list omsg }.
Definition upd_at {A} (f : nat -> A) (i : nat) (x : A) : nat -> A := fun j => if Nat.eqb j i then x else f j.

(** All robots start by creating stigmergy [id]; robot [i] has id [rid i]. *)
Definition net_new (rid : nat -> Z) (id : Z) : net :=
  {| n_st := fun i => vs_create (vst_new (rid i)) id; n_box := fun _ => [] |}.

Inductive nop :=
| NLocal (i : nat) (o : vop)      (* robot i performs a call *)
| NSend (i : nat)                 (* robot i sends one message *)
| NRecv (i n : nat).              (* robot i processes the n-th message of its inbox *)
Fixpoint remove_nth {A} (n : nat) (l : list A) : list A :=
  match n, l with
  | _, [] => []
  | O, _ :: t => t
  | S n', x :: t => x :: remove_nth n' t
  end.
Definition nstep (links : nat -> nat -> bool) (n : net) (o : nop) : res net :=
  match o with
  | NLocal i o =>
      '(s, _) <- vstep (n_st n i) o ;; Ok {| n_st := upd_at (n_st n) i s; n_box := n_box n |}
  | NSend i =>
      '(s, r) <- vstep (n_st n i) VSend ;;
      let l := match r with RSent l => l | _ => [] end in
      Ok {| n_st := upd_at (n_st n) i s;
            n_box := fun j => if links i j then n_box n j ++ l else n_box n j |}
  | NRecv i k =>
      match nth_error (n_box n i) k with
      | None => Ok n
      | Some m =>
          '(s, _) <- vstep (n_st n i) (VRecv m) ;;
          Ok {| n_st := upd_at (n_st n) i s; n_box := upd_at (n_box n) i (remove_nth k (n_box n i)) |}
      end
  end.
Fixpoint nrun (links : nat -> nat -> bool) (n : net) (ops : list nop) : res net :=
  match ops with
  | [] => Ok n
  | o :: t => n1 <- nstep links n o ;; nrun links n1 t
  end.

(** Nothing is queued, nothing is underway. *)
Definition quiet (n : net) : Prop := forall i, n_box n i = [] /\ oq_first (st_out (n_st n i)) = None.
(** A chain of links. *)
Inductive hears (links : nat -> nat -> bool) : nat -> nat -> Prop :=
| h_refl i : hears links i i
| h_step i j k : hears links i j -> links j k = true -> hears links i k.

(** Histories in which only robot [w] writes key [k] of stigmergy [id], never deletes it, and
    nobody creates the stigmergy again. *)
Definition nop_ok (fl : bool) (sidof : str -> Z) (id : Z) (k : obj) (w : nat) (o : nop) : Prop :=
  match o with
  | NLocal i (VPut id' k' v) =>
      vkey_class fl sidof k' = true /\ (id' = id -> same_key k' k = true -> i = w /\ v <> ONil)
  | NLocal i (VGet _ k') => vkey_class fl sidof k' = true
  | NLocal i (VCreate id') => id' <> id
  | NLocal i (VRecv _) | NLocal i VSend => False
  | _ => True
  end.
(** The values written to the key, in order. *)
Fixpoint written (id : Z) (k : obj) (ops : list nop) : list obj :=
  match ops with
  | [] => []
  | NLocal _ (VPut id' k' v) :: t => if (id' =? id) && same_key k' k then v :: written id k t else written id k t
  | _ :: t => written id k t
  end.
