(** Model of src/buzz/buzzstrman.c (the string manager).

    The two dictionaries are the tables of PDict.v (10 buckets each, buzzstrman.c 153-164);
    a string is the list of its bytes before the terminating NUL.  The pointer to
    {str, protect} stored in id2str becomes the pair itself, modified in place. *)
From Verif Require Import Base Dict PDict BSet.

Definition str := list Z.

(** struct buzzstrman_s, buzzstrman.h. *)
Record strman := mkSm {
  str2id : pdict str Z;
  id2str : pdict Z (str * bool);
  maxsid : Z;                    (* uint16_t *)
  gcdata : tree Z
}.

Definition s2i_get := pget (V:=Z) strkeyhash strcmp.
Definition s2i_set := pset (V:=Z) strkeyhash strcmp.
Definition s2i_remove := premove (V:=Z) strkeyhash strcmp.
Definition i2s_get := pget (V:=str * bool) int16keyhash int16keycmp.
Definition i2s_set := pset (V:=str * bool) int16keyhash int16keycmp.
Definition i2s_remove := premove (V:=str * bool) int16keyhash int16keycmp.
Definition i2s_modify := pmodify (V:=str * bool) int16keyhash int16keycmp.

(** buzzidtree_insert, buzzstrman.c 75-85. *)
Fixpoint idtree_insert (t : tree Z) (sid : Z) : tree Z :=
  match t with
  | Leaf => Node Leaf sid Leaf
  | Node l x r => if sid <? x then Node (idtree_insert l sid) x r
                  else if sid >? x then Node l x (idtree_insert r sid)
                  else t
  end.

(** buzzidtree_remove, buzzstrman.c 96-133 (find_min: 88-93). *)
Fixpoint idtree_remove (t : tree Z) (sid : Z) : tree Z :=
  match t with
  | Leaf => Leaf
  | Node l x r =>
      if sid <? x then Node (idtree_remove l sid) x r
      else if sid >? x then Node l x (idtree_remove r sid)
      else match l, r with
           | Leaf, Leaf => Leaf
           | _, Leaf => l
           | Leaf, _ => r
           | _, _ => match tree_min r with
                     | Some m => Node l m (idtree_remove r m)
                     | None => t   (* not reached: r is not empty *)
                     end
           end
  end.

(** buzzidtree_foreach, buzzstrman.c 139-146. *)
Definition idtree_foreach (t : tree Z) : list Z := tree_foreach t.

(** buzzstrman_new, buzzstrman.c 151-168. *)
Definition sm_new : strman := mkSm (pnew 10) (pnew 10) 0 Leaf.

(** while(buzzdict_get(id2str, &maxsid)) ++maxsid, buzzstrman.c 215-216. *)
Fixpoint find_free (fuel : nat) (ids : pdict Z (str * bool)) (m : Z) : res Z :=
  match fuel with
  | O => Hang
  | S f => match i2s_get ids m with
           | Some _ => find_free f ids (wrap16 (m + 1))
           | None => Ok m
           end
  end.

(** buzzstrman_register, buzzstrman.c 191-223. *)
Definition sm_register (fuel : nat) (sm : strman) (s : str) (protect : bool)
  : res (strman * Z) :=
  match s2i_get (str2id sm) s with
  | Some id =>
      if protect
      then match i2s_get (id2str sm) id with
           | None => UB   (* NULL dereference, line 201 *)
           | Some _ => Ok (mkSm (str2id sm)
                                (i2s_modify (id2str sm) id (fun d => (fst d, true)))
                                (maxsid sm) (gcdata sm), id)
           end
      else Ok (sm, id)
  | None =>
      let id2 := maxsid sm in
      let m1 := wrap16 (maxsid sm + 1) in
      let m2 := if m1 =? 0 then wrap16 (m1 + 1) else m1 in
      m3 <- find_free fuel (id2str sm) m2 ;;
      Ok (mkSm (s2i_set (str2id sm) s id2) (i2s_set (id2str sm) id2 (s, protect)) m3
               (gcdata sm), id2)
  end.

(** buzzstrman_get, buzzstrman.c 228-233. *)
Definition sm_get (sm : strman) (sid : Z) : option str :=
  match i2s_get (id2str sm) sid with Some d => Some (fst d) | None => None end.

(** buzzstrman_gc_unmark and buzzstrman_gc_clear, buzzstrman.c 238-258. *)
Definition sm_unmark (sm : strman) (e : str * Z) : strman :=
  match i2s_get (id2str sm) (snd e) with
  | Some d => if snd d then sm
              else mkSm (str2id sm) (id2str sm) (maxsid sm) (idtree_insert (gcdata sm) (snd e))
  | None => sm
  end.
Definition sm_gc_clear (sm : strman) : strman := fold_left sm_unmark (pentries (str2id sm)) sm.

(** buzzstrman_gc_mark, buzzstrman.c 263-273. *)
Definition sm_gc_mark (sm : strman) (sid : Z) : strman :=
  match i2s_get (id2str sm) sid with
  | Some d => if snd d then sm
              else mkSm (str2id sm) (id2str sm) (maxsid sm) (idtree_remove (gcdata sm) sid)
  | None => sm
  end.

(** buzzstrman_gc_dispose and buzzstrman_gc_prune, buzzstrman.c 278-295. *)
Definition sm_dispose (sm : strman) (sid : Z) : res strman :=
  match i2s_get (id2str sm) sid with
  | None => UB   (* NULL dereference, line 281 *)
  | Some d => Ok (mkSm (s2i_remove (str2id sm) (fst d)) (i2s_remove (id2str sm) sid)
                       (maxsid sm) (gcdata sm))
  end.
Fixpoint sm_dispose_all (sm : strman) (sids : list Z) : res strman :=
  match sids with
  | [] => Ok sm
  | i :: t => sm1 <- sm_dispose sm i ;; sm_dispose_all sm1 t
  end.
Definition sm_gc_prune (sm : strman) : res strman :=
  sm1 <- sm_dispose_all sm (idtree_foreach (gcdata sm)) ;;
  Ok (mkSm (str2id sm1) (id2str sm1) (maxsid sm1) Leaf).

(** A collection as performed by buzzheap_gc (buzzheap.c 205-230): clear, marks, prune. *)
Definition sm_gc (sm : strman) (marks : list Z) : res strman :=
  sm_gc_prune (fold_left sm_gc_mark marks (sm_gc_clear sm)).

(** More iterations than there are ids. *)
Definition sm_fuel : nat := Z.to_nat 65537.
