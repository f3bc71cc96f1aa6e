(** The meaning of the functions on swarms, for scripts: what a call gives and what it does to the state.  The first argument is
    self: the table of the swarm for methods. *)
From Coq Require Import String.
From Verif Require Import Base Float Dict PDict Strman StrmanSpec Obj Instr Vm Text Source HostSpec StdSpec NeighborsVmSpec OutMsg Swarm SwarmVm.
Local Open Scope Z_scope.
Local Open Scope list_scope.

Section SwarmVmSpec.
Context {X : Type}.
Notation sst := (sst X).
Notation meaning := (list obj -> sst -> out (obj * sst)).
Implicit Types st : sst.
Variable fid : string -> Z.
Variable sw : X -> swst.
Variable put_sw : X -> swst -> X.

Definition set_exts st (x : X) : sst := mkSt (s_glob st) (s_heap st) (s_str st) x.
(** A string that is never collected. *)
Definition new_name st (t : str) : out (obj * sst) :=
  if sm_live (s_str st) <? 65534 then
    match sm_register sm_fuel (s_str st) t true with Ok (sm, id) => Done (OStr id t, set_strs st sm) | _ => Unspec end
  else Unspec.
(** Members of a table, in their order. *)
Fixpoint new_members (t : obj) (l : list (string * obj)) st : out sst :=
  match l with
  | [] => Done st
  | (n, o) :: r => obind (new_name st (bs n)) (fun '(k, st) => obind (put_val st t k o) (new_members t r))
  end.
(** The table of a swarm: its methods, with the table as self, and its id. *)
Definition swarm_members (id : Z) : list (string * obj) :=
  map (fun n => (n, OClos false (sign32 (fid ("buzzswarm_" ++ n)%string)) [ONil])) swarm_methods ++ [("id"%string, OInt id)].
Definition new_swarm st (id : Z) : out (obj * sst) :=
  let a := OTab (zlen (s_heap st)) in
  obind (new_members a (swarm_members id) (set_tabs st (s_heap st ++ [tab_new]))) (fun st => Done (a, st)).
(** The id of a swarm: the member id of its table, converted to 16 bits. *)
Definition swarm_id_of (self : obj) st (k : Z -> sst -> out (obj * sst)) : out (obj * sst) :=
  obind (new_name st (bs "id")) (fun '(n, st) =>
  match get_val st self n with Done (OInt z) => k (z mod 65536) st | _ => Unspec end).
(** The operation of the model of swarms, and what it gives. *)
Definition gives (r : res (swst * sres)) st : out (obj * sst) :=
  match r with
  | Ok (s, r) =>
      let st := set_exts st (put_sw (s_ext st) s) in
      match r with
      | SErr => Fail E_SWARM
      | SNone => Done (ONil, st)
      | SInt z => Done (OInt z, st)
      | SSwarm id => new_swarm st id
      end
  | _ => Unspec
  end.
Definition an_int (x : obj) (k : Z -> out (obj * sst)) : out (obj * sst) := match x with OInt z => k z | _ => Fail E_TYPE end.

Definition sem_create : meaning := fun args st =>
  match args with [_; x] => an_int x (fun z => gives (swarm_create (sw (s_ext st)) z) st) | _ => Fail E_LNUM end.
Definition sem_method0 (op : swst -> Z -> res (swst * sres)) : meaning := fun args st =>
  match args with [self] => swarm_id_of self st (fun id st => gives (op (sw (s_ext st)) id) st) | _ => Fail E_LNUM end.
Definition sem_others : meaning := fun args st =>
  match args with
  | [self; x] => swarm_id_of self st (fun id st =>
      match sw_get (sw (s_ext st)) id with
      | None => Fail E_SWARM
      | Some _ => an_int x (fun z => gives (swarm_others (sw (s_ext st)) id z) st)
      end)
  | _ => Fail E_LNUM
  end.
Definition sem_select : meaning := fun args st =>
  match args with
  | [self; x] => swarm_id_of self st (fun id st => an_int x (fun z => gives (swarm_select (sw (s_ext st)) id z) st))
  | _ => Fail E_LNUM
  end.
(** The ids of the two swarms of a set operation.  An argument that is not a table is an error of type, which is reported after
    the operation has been done: see C118. *)
Definition swarm_member (x : obj) st (k : Z -> sst -> out (obj * sst)) : out (obj * sst) :=
  match x with
  | OTab _ => obind (new_name st (bs "id")) (fun '(n, st) => obind (get_val st x n) (fun o => match o with OInt z => k z st | _ => Fail E_SWARM end))
  | _ => Unspec
  end.
Definition sem_setop (op : swst -> Z -> Z -> Z -> res (swst * sres)) : meaning := fun args st =>
  match args with
  | [_; i; x; y] => an_int i (fun z => swarm_member x st (fun a st => swarm_member y st (fun b st => gives (op (sw (s_ext st)) z a b) st)))
  | _ => Fail E_LNUM
  end.

Definition swarm_meanings : list (string * meaning) :=
  [ ("buzzswarm_create", sem_create); ("buzzswarm_union", sem_setop swarm_union); ("buzzswarm_intersection", sem_setop swarm_intersection);
    ("buzzswarm_difference", sem_setop swarm_difference); ("buzzswarm_others", sem_others); ("buzzswarm_join", sem_method0 swarm_join);
    ("buzzswarm_leave", sem_method0 swarm_leave); ("buzzswarm_in", sem_method0 swarm_in); ("buzzswarm_select", sem_select) ]%string.
(** The functions in C that they are the meaning of. *)
Definition swarm_list : list (string * (vm X -> res (vm X))) :=
  [ ("buzzswarm_create", vm_swarm_create fid sw put_sw); ("buzzswarm_union", vm_swarm_union fid sw put_sw); ("buzzswarm_intersection", vm_swarm_intersection fid sw put_sw);
    ("buzzswarm_difference", vm_swarm_difference fid sw put_sw); ("buzzswarm_others", vm_swarm_others fid sw put_sw); ("buzzswarm_join", vm_swarm_join fid sw put_sw);
    ("buzzswarm_leave", vm_swarm_leave fid sw put_sw); ("buzzswarm_in", vm_swarm_in fid sw put_sw); ("buzzswarm_select", vm_swarm_select fid sw put_sw) ]%string.

(** With the rest of the library. *)
Definition lib_cfun (c : clib) (i : Z) : meaning := fun args st =>
  match find (fun e => fid (fst e) =? i) (swarm_meanings ++ std_meanings c) with Some e => snd e args st | None => Unspec end.
Definition lib_registered (c : clib) (flist : list (vm X -> res (vm X))) : Prop :=
  forall n f, In (n, f) (swarm_list ++ std_list c) -> 0 <= fid n < 2 ^ 31 /\ nth_error flist (Z.to_nat (fid n)) = Some f.

(** The operation on swarms that a call in a script is.  [has_id st o id]: [o] is the table of the swarm [id]. *)
Definition has_id st (o : obj) (id : Z) : Prop :=
  exists a t z, o = OTab a /\ 0 <= a /\ nth_error (s_heap st) (Z.to_nat a) = Some t /\ field (s_str st) t "id" (OInt z) /\ id = z mod 65536.
Inductive swarm_call st : string -> list obj -> swop -> Prop :=
| Call_create self z : swarm_call st "buzzswarm_create" [self; OInt z] (SCreate (z mod 65536))
| Call_join o id : has_id st o id -> swarm_call st "buzzswarm_join" [o] (SJoin id)
| Call_leave o id : has_id st o id -> swarm_call st "buzzswarm_leave" [o] (SLeave id)
| Call_in o id : has_id st o id -> swarm_call st "buzzswarm_in" [o] (SIn id)
| Call_select o id c : has_id st o id -> swarm_call st "buzzswarm_select" [o; OInt c] (SSelect id c)
| Call_others o id z : has_id st o id -> swarm_call st "buzzswarm_others" [o; OInt z] (SOthers id (z mod 65536))
| Call_union self z x y a b : has_id st x a -> has_id st y b -> swarm_call st "buzzswarm_union" [self; OInt z; x; y] (SUnion (z mod 65536) a b)
| Call_inter self z x y a b : has_id st x a -> has_id st y b -> swarm_call st "buzzswarm_intersection" [self; OInt z; x; y] (SInter (z mod 65536) a b)
| Call_diff self z x y a b : has_id st x a -> has_id st y b -> swarm_call st "buzzswarm_difference" [self; OInt z; x; y] (SDiff (z mod 65536) a b).
(** What the script gets for the result of the operation, and the state after the call. *)
Definition returned (x : sres) st (o : obj) (st' : sst) : Prop :=
  s_glob st' = s_glob st /\ keeps_strings (s_str st) (s_str st') /\ (exists ops outs, sm_run sm_new ops = Ok (s_str st', outs) /\ smhist_ok sm_new ops) /\
  match x with
  | SErr => False
  | SNone => o = ONil /\ s_heap st' = s_heap st
  | SInt z => o = OInt z /\ s_heap st' = s_heap st
  | SSwarm id =>
      o = OTab (zlen (s_heap st)) /\ has_id st' o id /\
      exists t, s_heap st' = s_heap st ++ [t] /\ zlen (pentries t) = 7 /\
        forall n, In n ["others"; "join"; "leave"; "in"; "select"; "exec"]%string -> field (s_str st') t n (OClos false (sign32 (fid ("buzzswarm_" ++ n)%string)) [o])
  end.
(** Operations of scripts: all but those of a control step, which sends the messages. *)
Definition of_script (o : swop) : Prop := match o with SSend | SPeriod => False | _ => True end.
End SwarmVmSpec.
