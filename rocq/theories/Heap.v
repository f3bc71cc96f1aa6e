(** Model of src/buzz/buzzheap.c: the object heap, cloning and garbage collection.

    Memory maps addresses to objects; a table holds the buckets of its dictionary, with
    pointers to key and data objects.  Reading an address that holds no object is UB. *)
From Verif Require Import Base Float Dict PDict BSet Strman Obj.

Definition ptr := Z.

(** union buzzobj_u, buzztype.h 37-121.  [KVal o]: nil, int, float, userdata. *)
Inductive kind :=
| KVal (o : obj)
| KStr (sid : Z) (s : str)
| KTab (buckets : pdict ptr ptr)
| KClos (native : bool) (ref : Z) (actrec : list ptr).
Record cell := mkCell { c_kind : kind; c_mark : Z }.
Definition mem := ptr -> option cell.
Definition mset (m : mem) (p : ptr) (c : option cell) : mem := fun q => if q =? p then c else m q.

(** struct buzzheap_s, buzzheap.h 19-26, with the string manager of the VM. *)
Record heap := mkHeap {
  h_mem : mem;
  h_objs : list ptr;      (* buzzdarray_t objs *)
  h_max : Z;              (* uint32_t max_objs *)
  h_marker : Z;           (* uint16_t marker *)
  h_str : strman
}.

(** buzzheap_new, buzzheap.c 18-29. *)
Definition heap_new : heap := mkHeap (fun _ => None) [] 1 0 sm_new.

Section Heap.
(** malloc: an address that depends on the live blocks. *)
Variable malloc : list ptr -> ptr.

(** Allocation and registration in the object list; buzzheap_newobj, buzzheap.c 46-56 (the
    marker given is the one of the heap), and the first lines of buzzheap_clone, 75-78.
    The fields are written right after the allocation by the callers; here the object is
    created with its contents. *)
Definition h_add (h : heap) (k : kind) (mk : Z) : heap * ptr :=
  let x := malloc (h_objs h) in
  (mkHeap (mset (h_mem h) x (Some (mkCell k mk))) (h_objs h ++ [x]) (h_max h) (h_marker h) (h_str h), x).
Definition h_newobj (h : heap) (k : kind) : heap * ptr := h_add h k (h_marker h).

(** What buzzobj_cmp and buzzobj_table_hash see of the object at an address. *)
Definition kobj (p : ptr) (k : kind) : obj :=
  match k with
  | KVal o => o
  | KStr sid s => OStr sid s
  | KTab _ => OTab p
  | KClos n r _ => OClos n r []
  end.
Definition load (m : mem) (p : ptr) : res kind := match m p with Some c => Ok (c_kind c) | None => UB end.
Definition phash (m : mem) (p : ptr) : res Z := k <- load m p ;; table_hash (kobj p k).
Definition pcmp (m : mem) (p q : ptr) : res Z :=
  k <- load m p ;; k' <- load m q ;; obj_cmp (kobj p k) (kobj q k').

(** Replace the contents of an object. *)
Definition h_store (h : heap) (p : ptr) (k : kind) : heap :=
  match h_mem h p with
  | Some c => mkHeap (mset (h_mem h) p (Some (mkCell k (c_mark c)))) (h_objs h) (h_max h) (h_marker h) (h_str h)
  | None => h
  end.

(** buzzheap_clone, buzzheap.c 66-124.  The callback of the foreach (66-71) clones the key and
    the data of an entry and sets them in the new table. *)
Fixpoint h_clone (fuel : nat) (h : heap) (o : ptr) : res (heap * ptr) :=
  match fuel with
  | O => Hang
  | S f =>
    match h_mem h o with
    | None => UB
    | Some c =>
      match c_kind c with
      | KTab bs =>
          let '(h1, x) := h_add h (KTab (pnew (zlen bs))) (c_mark c) in
          h2 <- (fix go (l : list (ptr * ptr)) (h : heap) : res heap :=
                   match l with
                   | [] => Ok h
                   | (k, d) :: t =>
                       '(ha, k') <- h_clone f h k ;;
                       '(hb, d') <- h_clone f ha d ;;
                       kx <- load (h_mem hb) x ;;
                       match kx with
                       | KTab tb => tb' <- rset (phash (h_mem hb)) (pcmp (h_mem hb)) tb k' d' ;;
                                    go t (h_store hb x (KTab tb'))
                       | _ => UB
                       end
                   end) (pentries bs) h1 ;;
          Ok (h2, x)
      | k => Ok (h_add h k (c_mark c))
      end
    end
  end.

(** ** Marking *)

(** State of the marking phase: memory and string manager. *)
Definition mst := (mem * strman)%type.

(** buzzheap_obj_mark with its helpers for table entries and activation records,
    buzzheap.c 129-159. *)
Fixpoint obj_mark (fuel : nat) (mk : Z) (st : mst) (p : ptr) : res mst :=
  match fuel with
  | O => Hang
  | S f =>
    match fst st p with
    | None => UB
    | Some c =>
      if c_mark c =? mk then Ok st
      else
        let m1 := mset (fst st) p (Some (mkCell (c_kind c) mk)) in
        match c_kind c with
        | KVal _ => Ok (m1, snd st)
        | KStr sid _ => Ok (m1, sm_gc_mark (snd st) sid)
        | KTab bs =>
            (fix go (l : list (ptr * ptr)) (st : mst) : res mst :=
               match l with
               | [] => Ok st
               | (k, d) :: t => s1 <- obj_mark f mk st k ;; s2 <- obj_mark f mk s1 d ;; go t s2
               end) (pentries bs) (m1, snd st)
        | KClos _ _ ar =>
            (fix go (l : list ptr) (st : mst) : res mst :=
               match l with
               | [] => Ok st
               | d :: t => s1 <- obj_mark f mk st d ;; go t s1
               end) ar (m1, snd st)
        end
    end
  end.
End Heap.

(** ** Roots *)

(** The parts of struct buzzvm_s that hold objects. *)
Record vroots := mkVRoots {
  v_onconflict : option ptr;
  v_onconflictlost : option ptr;
  v_elems : list (ptr * ptr)             (* key and data of each element *)
}.
Record roots := mkRoots {
  r_gsyms : list ptr;                    (* values of the global symbols *)
  r_stacks : list (list ptr);
  r_lsyms : list (list ptr);             (* local symbol tables *)
  r_vstigs : list vroots;
  r_listeners : list (Z * ptr);          (* topic id and closure *)
  r_broadcasts : list (ptr * ptr);       (* queued: topic and value *)
  r_puts : list (ptr * ptr);             (* queued: key and data *)
  r_queries : list (ptr * ptr)
}.

(** What is marked, in order. *)
Inductive item := IObj (p : ptr) | IStr (sid : Z).
Definition opt_item (o : option ptr) : list item := match o with Some p => [IObj p] | None => [] end.
Definition pair_items (e : ptr * ptr) : list item := [IObj (fst e); IObj (snd e)].
(** buzzheap_vstig_mark and buzzheap_vstigobj_mark, buzzheap.c 173-187. *)
Definition vstig_items (v : vroots) : list item :=
  opt_item (v_onconflict v) ++ opt_item (v_onconflictlost v) ++ flat_map pair_items (v_elems v).
(** buzzheap_listener_mark, buzzheap.c 189-192. *)
Definition listener_items (l : Z * ptr) : list item := [IStr (fst l); IObj (snd l)].
(** The traversals of buzzheap_gc, buzzheap.c 161-171, 194-196, 206-217, and of buzzoutmsg_gc, buzzoutmsg.c
    490-515 (nested foreach loops, flattened). *)
Definition root_items (r : roots) : list item :=
  map IObj (r_gsyms r) ++
  flat_map (map IObj) (r_stacks r) ++
  flat_map (map IObj) (r_lsyms r) ++
  flat_map vstig_items (r_vstigs r) ++
  flat_map listener_items (r_listeners r) ++
  flat_map pair_items (r_broadcasts r) ++
  flat_map pair_items (r_puts r) ++
  flat_map pair_items (r_queries r).

Definition mark_item (fuel : nat) (mk : Z) (st : mst) (i : item) : res mst :=
  match i with
  | IObj p => obj_mark fuel mk st p
  | IStr sid => Ok (fst st, sm_gc_mark (snd st) sid)
  end.
Fixpoint mark_items (fuel : nat) (mk : Z) (st : mst) (l : list item) : res mst :=
  match l with
  | [] => Ok st
  | i :: t => s1 <- mark_item fuel mk st i ;; mark_items fuel mk s1 t
  end.

(** ** Sweeping: the loop of buzzheap.c 218-228, from the last object down to the first; the
    element destructor of the array frees the object (buzzheap.c 14-16). *)
Fixpoint sweep (n : nat) (mk : Z) (m : mem) (objs : list ptr) : res (mem * list ptr) :=
  match n with
  | O => Ok (m, objs)
  | S i =>
      match nth_error objs i with
      | None => UB
      | Some p =>
          match m p with
          | None => UB
          | Some c => if c_mark c =? mk then sweep i mk m objs
                      else sweep i mk (mset m p None) (del objs i)
          end
      end
  end.

(** buzzheap_gc, buzzheap.c 198-233.  Fuel of the marking: one more than the number of objects. *)
Definition h_gc (h : heap) (r : roots) : res heap :=
  if zlen (h_objs h) <? h_max h then Ok h
  else
    let mk := wrap16 (h_marker h + 1) in
    '(m1, sm1) <- mark_items (S (length (h_objs h))) mk (h_mem h, sm_gc_clear (h_str h)) (root_items r) ;;
    '(m2, objs2) <- sweep (length (h_objs h)) mk m1 (h_objs h) ;;
    sm2 <- sm_gc_prune sm1 ;;
    Ok (mkHeap m2 objs2 (match objs2 with [] => 1 | _ => wrap32 (2 * zlen objs2) end) mk sm2).
