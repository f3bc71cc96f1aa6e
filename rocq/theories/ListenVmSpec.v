(** The meaning of neighbors.listen, neighbors.ignore and neighbors.broadcast, for scripts, beside the library. *)
From Coq Require Import String.
From Verif Require Import Base Float Dict PDict Strman StrmanSpec Obj Wire Instr Vm Text Source HostSpec StdSpec NeighborsVmSpec Swarm SwarmVm SwarmVmSpec Listen ListenSpec.
Local Open Scope Z_scope.
Local Open Scope list_scope.

Section ListenVmSpec.
Notation sst := (sst lext).
Notation meaning := (list obj -> sst -> out (obj * sst)).
Implicit Types st : sst.
(** Registering or removing one listener. *)
Definition with_listeners st (op : lop) : sst := set_exts st (set_listen (s_ext st) (lis_apply op (lx_listen (s_ext st)))).
(** The identifiers of strings have 16 bits; the meanings say nothing about others, which do not exist. *)
Definition sem_listen : meaning := fun args st =>
  match args with
  | [_; OStr i _; f] =>
      match f with
      | OClos _ _ _ => if (0 <=? i) && (i <? 65536) then Done (ONil, with_listeners st (LListen i f)) else Unspec
      | _ => Fail E_TYPE
      end
  | [_; _; _] => Fail E_TYPE
  | _ => Fail E_LNUM
  end.
Definition sem_ignore : meaning := fun args st =>
  match args with
  | [_; OStr i _] => if (0 <=? i) && (i <? 65536) then Done (ONil, with_listeners st (LIgnore i)) else Unspec
  | [_; _] => Fail E_TYPE
  | _ => Fail E_LNUM
  end.
(** The contents of any value are queued; nothing is said about a table that contains itself, or more deeply nested than [k]. *)
Definition with_broadcast st (m : wobj * wobj) : sst := set_exts st (set_out (s_ext st) (lx_out (s_ext st) ++ [m])).
Definition sem_send (k : nat) : meaning := fun args st =>
  match args with
  | [_; OStr i t; o] =>
      match snapshot k (s_heap st) (OStr i t), snapshot k (s_heap st) o with Ok t', Ok w => Done (ONil, with_broadcast st (t', w)) | _, _ => Unspec end
  | [_; _; _] => Fail E_TYPE
  | _ => Fail E_LNUM
  end.
Definition listen_meanings (k : nat) (c : clib) : list (string * meaning) :=
  ("buzzneighbors_listen"%string, sem_listen) :: ("buzzneighbors_ignore"%string, sem_ignore) :: ("buzzneighbors_broadcast"%string, sem_send k) :: std_meanings c.
Definition listen_list (k : nat) (c : clib) : list (string * (lvm -> res lvm)) :=
  ("buzzneighbors_listen"%string, nb_listen) :: ("buzzneighbors_ignore"%string, nb_ignore) :: ("buzzneighbors_broadcast"%string, nb_broadcast k) :: std_list c.
Definition listen_cfun (fid : string -> Z) (k : nat) (c : clib) (i : Z) : meaning := fun args st =>
  match find (fun e => fid (fst e) =? i) (listen_meanings k c) with Some e => snd e args st | None => Unspec end.
Definition listen_registered (fid : string -> Z) (k : nat) (c : clib) (flist : list (lvm -> res lvm)) : Prop :=
  forall n f, In (n, f) (listen_list k c) -> 0 <= fid n < 2 ^ 31 /\ nth_error flist (Z.to_nat (fid n)) = Some f.
(** What a script may do to the listeners. *)
Definition lop_of_script (o : lop) : Prop := lop_ok o /\ match o with LListen _ f => otype f = T_CLOSURE | LIgnore _ => True end.
(** What it may send: messages whose topic is a string. *)
Definition topic_is_string (m : wobj * wobj) : Prop := exists i t, fst m = WStr i t.
End ListenVmSpec.
