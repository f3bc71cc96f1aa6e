(** The meaning of neighbors.broadcast, for scripts, beside those of the functions on stigmergies and swarms and of the library. *)
From Coq Require Import String.
From Verif Require Import Base Float Dict PDict Strman StrmanSpec Obj Instr Vm Text Source HostSpec StdSpec NeighborsVmSpec OutMsg Vstig VstigSpec Swarm SwarmVm SwarmVmSpec VstigVm VstigVmSpec BroadcastVm Robot.
Local Open Scope Z_scope.
Local Open Scope list_scope.

(** Values that are copied as they are. *)
Definition scalar (o : obj) : Prop := match o with ONil | OInt _ | OFloat _ | OStr _ _ => True | _ => False end.
Definition clones (clone : list table -> obj -> res (list table * obj)) : Prop := forall h o, scalar o -> clone h o = Ok (h, o).
Definition h_put_out (x : held) (q : oq) : held := {| h_robot := h_robot x; h_own := h_own x; h_vstigs := h_vstigs x; h_out := q |}.

Section BroadcastVmSpec.
Notation sst := (sst held).
Notation meaning := (list obj -> sst -> out (obj * sst)).
Implicit Types st : sst.
(** The topic must be a string; the meaning says nothing about values that are tables, closures or user data. *)
Definition sem_broadcast : meaning := fun args st =>
  match args with
  | [_; t; o] =>
      match t with
      | OStr _ _ =>
          match o with
          | ONil | OInt _ | OFloat _ | OStr _ _ => Done (ONil, set_exts st (h_put_out (s_ext st) (append_broadcast (h_out (s_ext st)) t o)))
          | _ => Unspec
          end
      | _ => Fail E_TYPE
      end
  | _ => Fail E_LNUM
  end.
Definition robot_meanings (fid : string -> Z) (c : clib) : list (string * meaning) :=
  ("buzzneighbors_broadcast"%string, sem_broadcast) :: all_meanings fid h_vst h_put_vst h_sw h_put_sw c.
Definition robot_list (fid : string -> Z) clone (c : clib) : list (string * (vm held -> res (vm held))) :=
  ("buzzneighbors_broadcast"%string, vm_broadcast h_out h_put_out clone) :: all_list fid h_vst h_put_vst h_sw h_put_sw c.
Definition robot_cfun (fid : string -> Z) (c : clib) (i : Z) : meaning := fun args st =>
  match find (fun e => fid (fst e) =? i) (robot_meanings fid c) with Some e => snd e args st | None => Unspec end.
Definition robot_registered (fid : string -> Z) clone (c : clib) (flist : list (vm held -> res (vm held))) : Prop :=
  forall n f, In (n, f) (robot_list fid clone c) -> 0 <= fid n < 2 ^ 31 /\ nth_error flist (Z.to_nat (fid n)) = Some f.
(** What a script may do: operations on stigmergies and on swarms, and broadcasts of scalars under a string. *)
Definition hop_of_script (o : hop) : Prop :=
  match o with HV o => vop_of_script o | HS o => of_script o | HB (OStr _ _) x => scalar x | HB _ _ => False end.
End BroadcastVmSpec.
