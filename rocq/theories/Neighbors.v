(** Model of kin() and nonkin(), src/buzz/buzzneighbors.c, and of swarm.id(), buzzswarm.c.

    The argument [args] is the list of arguments of the call (vm->lsyms without the self
    table), [stack] the stack of swarm ids (vm->swarmstack, top last; uint16_t values) and
    [data] the table in the field "poses" of the self table, None when it is not a table.
    [None] as a result: the call fails with a parameter number or type error. *)
From Verif Require Import Base Dict PDict Strman Obj OutMsg Swarm.

(** buzzdarray_get(vm->swarmstack, size - pos): undefined past the end. *)
Definition stack_get (stack : list Z) (pos : Z) : res Z :=
  match nth_error stack (Z.to_nat (zlen stack - pos)) with Some i => Ok i | None => UB end.

(** buzzneighbors.c 208-221 and 271-284.  After the check that there are no arguments the test
    on the number of symbols never succeeds and the position is 1. *)
Definition cur_swarm (stack : list Z) : res Z :=
  match stack with
  | [] => Ok (-1)
  | _ => if 1 <=? zlen stack then stack_get stack 1 else Ok (-1)
  end.

(** The robot id of an entry: the integer in the key object (conversion to uint16_t).  Keys
    of the table of neighbors are integers; anything else is outside this model. *)
Definition key_int (k : obj) : res Z := match k with OInt z => Ok z | _ => UB end.

(** buzzdict_foreach with neighbor_filter_kin (188-204) or neighbor_filter_nonkin (254-267). *)
Fixpoint nb_filter (keep : Z -> bool) (l : list (obj * obj)) (t : table) : res table :=
  match l with
  | [] => Ok t
  | (k, v) :: l' =>
      r <- key_int k ;;
      if keep r then t' <- tab_set t k v ;; nb_filter keep l' t' else nb_filter keep l' t
  end.

(** buzzneighbors_kin, buzzneighbors.c 206-249: the table in the field "poses" of the result
    (None: no such field). *)
Definition nb_kin (mb : members) (stack : list Z) (args : list obj) (data : option table)
  : res (option (option table)) :=
  match args with
  | _ :: _ => Ok None
  | [] =>
      sw <- cur_swarm stack ;;
      match data with
      | None => Ok (Some None)
      | Some d =>
          t <- nb_filter (fun r => (sw <? 0) || ((sw >=? 0) && mb_isrobotin mb (wrap16 r) (wrap16 sw)))
                 (pentries d) tab_new ;;
          Ok (Some (Some t))
      end
  end.
(** buzzneighbors_nonkin, buzzneighbors.c 269-314. *)
Definition nb_nonkin (mb : members) (stack : list Z) (args : list obj) (data : option table)
  : res (option (option table)) :=
  match args with
  | _ :: _ => Ok None
  | [] =>
      sw <- cur_swarm stack ;;
      if sw >=? 0 then
        match data with
        | None => Ok (Some None)
        | Some d =>
            t <- nb_filter (fun r => negb (mb_isrobotin mb (wrap16 r) (wrap16 sw))) (pentries d) tab_new ;;
            Ok (Some (Some t))
        end
      else Ok (Some None)
  end.

(** buzzswarm_id, buzzswarm.c 310-337: the argument is read when there is more than one. *)
Definition swarm_id (stack : list Z) (args : list obj) : res (option obj) :=
  match stack with
  | [] => Ok (Some ONil)
  | _ =>
      let go pos :=
        let pos := if pos >? zlen stack then wrap16 (zlen stack) else pos in
        i <- stack_get stack pos ;; Ok (Some (OInt i)) in
      if zlen args >? 1 then
        match args with
        | OInt p :: _ => go (wrap16 p)
        | _ => Ok None
        end
      else go 1
  end.
