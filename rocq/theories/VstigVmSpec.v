(** The meaning of the functions on virtual stigmergies, for scripts: what a call gives and what it does to the state.  The first
    argument is self: the table of the stigmergy for methods. *)
From Coq Require Import String.
From Verif Require Import Base Float Dict PDict Strman StrmanSpec Obj Instr Vm Text Source HostSpec StdSpec NeighborsVmSpec OutMsg Vstig VstigSpec Swarm SwarmVm SwarmVmSpec VstigVm.
Local Open Scope Z_scope.
Local Open Scope list_scope.

Section VstigVmSpec.
Context {X : Type}.
Notation sst := (sst X).
Notation meaning := (list obj -> sst -> out (obj * sst)).
Implicit Types st : sst.
Variable fid : string -> Z.
Variable vst : X -> vstate.
Variable put_vst : X -> vstate -> X.

(** The table of a stigmergy: its id, and its methods with the table as self. *)
Definition vstig_members (id : Z) : list (string * obj) :=
  ("id"%string, OInt id) :: map (fun n => (n, OClos false (sign32 (fid ("buzzvstig_" ++ n)%string)) [ONil])) vstig_methods.
Definition new_vstig st (id : Z) : out (obj * sst) :=
  let a := OTab (zlen (s_heap st)) in
  obind (new_members a (vstig_members id) (set_tabs st (s_heap st ++ [tab_new]))) (fun st => Done (a, st)).

Definition sem_vcreate : meaning := fun args st =>
  match args with
  | [_; x] => an_int x (fun z => let id := z mod 65536 in new_vstig (set_exts st (put_vst (s_ext st) (vs_create (vst (s_ext st)) id))) id)
  | _ => Fail E_LNUM
  end.
Definition sem_vput : meaning := fun args st =>
  match args with
  | [self; k; o] => swarm_id_of self st (fun id st =>
      match vs_put (vst (s_ext st)) id k o with Ok s => Done (ONil, set_exts st (put_vst (s_ext st) s)) | _ => Unspec end)
  | _ => Fail E_LNUM
  end.
Definition sem_vsize : meaning := fun args st =>
  match args with
  | [self] => swarm_id_of self st (fun id st => Done (OInt (sign32 (vs_size (vst (s_ext st)) id)), st))
  | _ => Fail E_LNUM
  end.
Definition sem_vget : meaning := fun args st =>
  match args with
  | [self; k] => swarm_id_of self st (fun id st =>
      match vs_get (vst (s_ext st)) id k with Ok (s, o) => Done (o, set_exts st (put_vst (s_ext st) s)) | _ => Unspec end)
  | _ => Fail E_LNUM
  end.
Definition vstig_meanings : list (string * meaning) :=
  [ ("buzzvstig_create", sem_vcreate); ("buzzvstig_put", sem_vput); ("buzzvstig_size", sem_vsize); ("buzzvstig_get", sem_vget) ]%string.
(** The functions in C that they are the meaning of. *)
Definition vstig_list : list (string * (vm X -> res (vm X))) :=
  [ ("buzzvstig_create", vm_vstig_create fid vst put_vst); ("buzzvstig_put", vm_vstig_put vst put_vst); ("buzzvstig_size", vm_vstig_size vst);
    ("buzzvstig_get", vm_vstig_get vst put_vst) ]%string.

(** With the functions on swarms and the rest of the library. *)
Variable sw : X -> swst.
Variable put_sw : X -> swst -> X.
Definition all_meanings (c : clib) : list (string * meaning) := vstig_meanings ++ swarm_meanings fid sw put_sw ++ std_meanings c.
Definition all_list (c : clib) : list (string * (vm X -> res (vm X))) := vstig_list ++ swarm_list fid sw put_sw ++ std_list c.
Definition all_cfun (c : clib) (i : Z) : meaning := fun args st =>
  match find (fun e => fid (fst e) =? i) (all_meanings c) with Some e => snd e args st | None => Unspec end.
Definition all_registered (c : clib) (flist : list (vm X -> res (vm X))) : Prop :=
  forall n f, In (n, f) (all_list c) -> 0 <= fid n < 2 ^ 31 /\ nth_error flist (Z.to_nat (fid n)) = Some f.

(** The operation on stigmergies that a call in a script is; [has_id st o id]: [o] is the table of the stigmergy [id]. *)
Inductive vstig_call st : string -> list obj -> vop -> Prop :=
| Call_vcreate self z : vstig_call st "buzzvstig_create" [self; OInt z] (VCreate (z mod 65536))
| Call_vput o id k x : has_id st o id -> vstig_call st "buzzvstig_put" [o; k; x] (VPut id k x)
| Call_vget o id k : has_id st o id -> vstig_call st "buzzvstig_get" [o; k] (VGet id k)
| Call_vsize o id : has_id st o id -> vstig_call st "buzzvstig_size" [o] (VSize id).
(** What the script gets for the operation and its result, and the state after the call. *)
Definition vreturned (op : vop) (r : vout) st (o : obj) (st' : sst) : Prop :=
  s_glob st' = s_glob st /\ keeps_strings (s_str st) (s_str st') /\ (exists ops outs, sm_run sm_new ops = Ok (s_str st', outs) /\ smhist_ok sm_new ops) /\
  match op with
  | VCreate id =>
      o = OTab (zlen (s_heap st)) /\ has_id st' o id /\
      exists t, s_heap st' = s_heap st ++ [t] /\ zlen (pentries t) = 7 /\
        forall n, In n ["foreach"; "size"; "put"; "get"; "onconflict"; "onconflictlost"]%string ->
          field (s_str st') t n (OClos false (sign32 (fid ("buzzvstig_" ++ n)%string)) [o])
  | _ => s_heap st' = s_heap st /\ match r with RVal x => o = x | RSize n => n < 2 ^ 31 -> o = OInt n | _ => o = ONil end
  end.

(** What a script may do to the rest of the state: operations on stigmergies and on swarms. *)
Definition vop_of_script (o : vop) : Prop := match o with VCreate _ | VPut _ _ _ | VGet _ _ => True | _ => False end.
Inductive by_calls : X -> X -> Prop :=
| By_none x : by_calls x x
| By_vstig x y op s r : by_calls x y -> vop_of_script op -> vstep (vst y) op = Ok (s, r) -> by_calls x (put_vst y s)
| By_swarm x y op s r : by_calls x y -> of_script op -> sw_step (sw y) op = Ok (s, r, []) -> by_calls x (put_sw y s).
End VstigVmSpec.
