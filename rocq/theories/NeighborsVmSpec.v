(** Specification vocabulary for the methods of neighbors. *)
From Coq Require Import String.
From Verif Require Import Base Float Dict PDict Strman StrmanSpec Obj ObjSpec Instr Vm VmSpec Text TableLibSpec.
Local Open Scope Z_scope.
Local Open Scope list_scope.

(** The strings of the VM: a string manager as operations make it, with room for those of [names] it does not have yet. *)
Definition room_for (names : list string) (sm : strman) : Prop :=
  (exists ops outs, sm_run sm_new ops = Ok (sm, outs) /\ smhist_ok sm_new ops) /\
  exists new, (forall n, In n names -> In n new \/ exists id, 0 <= id < 65536 /\ sm_get sm id = Some (bs n)) /\
    sm_live sm + zlen new < 65534.
(** Strings keep their ids. *)
Definition keeps_strings (sm sm' : strman) : Prop :=
  forall i t, 0 <= i < 65536 -> sm_get sm i = Some t -> sm_get sm' i = Some t.

(** The entry of [t] under the string [name]. *)
Definition field (sm : strman) (t : table) (name : string) (o : obj) : Prop :=
  exists sid, 0 <= sid < 65536 /\ sm_get sm sid = Some (bs name) /\ tab_get t (OStr sid (bs name)) = Ok (Some o).
Definition no_field (t : table) (name : string) : Prop :=
  forall sid, 0 <= sid < 65536 -> tab_get t (OStr sid (bs name)) = Ok None.
(** The table at [a] holds the neighbors in the table at [d]; without [d], it holds none. *)
Definition holds {X} (v : vm X) (a : Z) (d : option Z) : Prop :=
  exists t, tab_at v a = Ok t /\
    match d with Some d => field (v_str v) t "poses" (OTab d) | None => no_field t "poses" end.

(** The methods a structure of neighbors has; [fid] are the positions of the C functions.  The self of each
    method is the structure at [a]. *)
Definition has_methods (fid : string -> Z) (sm : strman) (a : Z) (t : table) : Prop :=
  forall m, In m ["get"; "filter"; "kin"; "nonkin"; "foreach"; "map"; "reduce"; "count"]%string ->
    field sm t m (OClos false (sign32 (fid m)) [OTab a]).


(** ** What the controller of the robot puts in neighbors *)
(** The global variable neighbors is the table at [a]. *)
Definition neighbors_at {X} (v : vm X) (a : Z) : Prop :=
  exists sid, 0 <= sid < 65536 /\ sm_get (v_str v) sid = Some (bs "neighbors") /\ gsym_get (v_gsyms v) sid = Some (OTab a).
(** A table whose keys are registered strings (that do not look like numbers) and integers. *)
Definition live_key (sm : strman) (k : obj) : Prop :=
  match k with
  | OStr sid s => 0 <= sid < 65536 /\ sm_get sm sid = Some s /\ numlike s = false
  | OInt z => int32_range z
  | _ => False
  end.
Definition made (sm : strman) (t : table) : Prop :=
  exists ops, Forall (fun o => live_key sm (tab_op_key o)) ops /\ tab_history tab_new ops = Ok t.
(** A table whose keys are integers. *)
Definition int_key (k : obj) : bool := match k with OInt z => int32_rangeb z | _ => false end.

(** Distance, azimuth and elevation of a neighbor. *)
Definition pose : Type := f32 * f32 * f32.
(** The table at [e] has the fields distance, azimuth and elevation of [p], and no other. *)
Definition entry_is {X} (v : vm X) (e : Z) (p : pose) : Prop :=
  exists t, tab_at v e = Ok t /\
    field (v_str v) t "distance" (OFloat (fst (fst p))) /\ field (v_str v) t "azimuth" (OFloat (snd (fst p))) /\
    field (v_str v) t "elevation" (OFloat (snd p)) /\ zlen (pentries t) = 3.
(** The structure at [a] has its entries in the table at [d]: for each robot [r], the pose [f r]. *)
Definition neighbors_are {X} (v : vm X) (a d : Z) (f : Z -> option pose) : Prop :=
  d <> a /\ holds v a (Some d) /\ exists td, tab_at v d = Ok td /\ built int_key td /\
    forall r, int32_range r ->
      match f r with
      | Some p => exists e, e <> a /\ e <> d /\ tab_get td (OInt r) = Ok (Some (OTab e)) /\ entry_is v e p
      | None => tab_get td (OInt r) = Ok None
      end.
(** Nothing changed except strings added, tables added and the tables at [l]. *)
Record only_tables {X} (l : list Z) (v v' : vm X) : Prop := {
  ot_pc : v_pc v' = v_pc v;
  ot_stacks : v_stacks v' = v_stacks v;
  ot_locals : v_lsymts v' = v_lsymts v;
  ot_state : v_state v' = v_state v;
  ot_gsyms : v_gsyms v' = v_gsyms v;
  ot_swstk : v_swstk v' = v_swstk v;
  ot_ext : v_ext v' = v_ext v;
  ot_strings : keeps_strings (v_str v) (v_str v');
  ot_tables : forall i t, ~ In i l -> tab_at v i = Ok t -> tab_at v' i = Ok t
}.
(** The strings the functions use. *)
Definition add_names : list string := ["neighbors"; "poses"; "distance"; "azimuth"; "elevation"]%string.
(** The last message about each robot. *)
Definition last_pose (l : list (Z * pose)) (r : Z) : option pose :=
  match find (fun e => fst e =? r) (rev l) with Some e => Some (snd e) | None => None end.
