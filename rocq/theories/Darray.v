(** Model of src/buzz/buzzdarray.c and the access macros of src/buzz/buzzdarray.h.

    Memory is explicit: [d_mem] is the allocated storage, one entry per element slot;
    [None] is a slot whose content is not an element written by the user (calloc-ed zero
    bytes, or uninitialised bytes after realloc/malloc).  [d_size] is the int64_t field,
    [d_cap] the uint32_t field.  32-bit unsigned arithmetic is written out with [wrap32].
    The elem_destroy callback is modelled by returning the list of elements passed to it.
    Simplification: malloc/calloc/realloc of a non-zero number of bytes succeed. *)
From Verif Require Import Base.

Section Darray.
Context {A : Type}.

(** struct buzzdarray_s, buzzdarray.h 36-42. *)
Record darray := mkDa { d_mem : list (option A); d_size : Z; d_cap : Z; d_esz : Z }.

(** Number of element slots that fit in [n] bytes. *)
Definition slots_of (bytes esz : Z) : nat := Z.to_nat (bytes / esz).

(** realloc(): the common prefix is kept, the rest is indeterminate.  realloc(p,0) returns
    NULL (glibc), which every caller in buzzdarray.c answers with abort(). *)
Definition realloc (mem : list (option A)) (bytes esz : Z) : res (list (option A)) :=
  if bytes =? 0 then Abort
  else let n := slots_of bytes esz in
       Ok (firstn n mem ++ repeat None (n - length mem)).

(** Byte offset of a slot: buzzdarray_rawget, buzzdarray.c 9; a 32-bit product
    (pos * elem_size).  An offset that does not fit 32 bits wraps around and addresses the
    wrong bytes: treated as [UB]. *)
Definition slot_addr (d : darray) (pos : Z) : res nat :=
  if (0 <=? pos) && (pos * d_esz d <? 2 ^ 32) then Ok (Z.to_nat pos) else UB.

(** buzzdarray_new, buzzdarray.c 16-33. *)
Definition da_new (cap esz : Z) : res darray :=
  if cap =? 0 then Abort
  else Ok (mkDa (repeat None (Z.to_nat cap)) 0 cap esz).

(** Reading one slot through a pointer; outside the allocation or indeterminate: UB. *)
Definition slot_read (d : darray) (i : nat) : res A :=
  match nth_error (d_mem d) i with
  | Some (Some a) => Ok a
  | _ => UB
  end.

(** memcpy of one element into slot [i]. *)
Definition slot_write (d : darray) (i : nat) (v : A) : res darray :=
  if (i <? length (d_mem d))%nat
  then Ok (mkDa (upd (d_mem d) i (Some v)) (d_size d) (d_cap d) (d_esz d))
  else UB.

(** memmove of [n] elements from slot [src] to slot [dst]. *)
Definition slot_move (mem : list (option A)) (dst src n : nat) : res (list (option A)) :=
  if ((dst + n <=? length mem) && (src + n <=? length mem))%nat
  then Ok (firstn dst mem ++ firstn n (skipn src mem) ++ skipn (dst + n) mem)
  else UB.

(** do { capacity *= 2; } while(size+1 >= capacity), buzzdarray.c 101.  Once the uint32_t
    capacity has become 0 the loop never ends. *)
Fixpoint grow_cap (fuel : nat) (size cap : Z) : res Z :=
  match fuel with
  | O => Hang
  | S f =>
    let c := wrap32 (cap * 2) in
    if size + 1 >=? c then (if c =? 0 then Hang else grow_cap f size c) else Ok c
  end.

(** buzzdarray_makeslot, buzzdarray.c 90-120 (the returned pointer is only compared with
    NULL by the callers in buzzdarray.c). *)
Definition da_makeslot (d : darray) (pos : Z) : res darray :=
  let i := if pos <? d_size d then pos else wrap32 (d_size d) in
  d1 <- (if d_size d + 1 >=? d_cap d
         then if d_cap d =? 0 then Abort
              else c <- grow_cap 33 (d_size d) (d_cap d) ;;
                   m <- realloc (d_mem d) (wrap32 (c * d_esz d)) (d_esz d) ;;
                   Ok (mkDa m (d_size d) c (d_esz d))
         else Ok d) ;;
  m2 <- (if negb (d_size d1 =? 0) && (i <? d_size d1)
         then src <- slot_addr d1 i ;;
              dst <- slot_addr d1 (i + 1) ;;
              slot_move (d_mem d1) dst src (Z.to_nat (d_size d1 - i))
         else Ok (d_mem d1)) ;;
  Ok (mkDa m2 (d_size d1 + 1) (d_cap d1) (d_esz d1)).

(** buzzdarray_insert (125-132) and buzzdarray_set (185-199) call each other. *)
Fixpoint da_insert_f (fuel : nat) (d : darray) (pos : Z) (v : A) : res darray :=
  match fuel with
  | O => Hang
  | S f =>
    d1 <- da_makeslot d pos ;;
    if pos <? d_size d1
    then a <- slot_addr d1 pos ;; slot_write d1 a v
    else da_insert_f f d1 pos v
  end.

Definition da_insert (d : darray) (pos : Z) (v : A) : res darray :=
  da_insert_f (S (Z.to_nat (pos - d_size d))) d pos v.

Definition da_set (d : darray) (pos : Z) (v : A) : res darray :=
  if pos <? d_size d
  then a <- slot_addr d pos ;; slot_write d a v
  else da_insert d pos v.

(** buzzdarray_push, buzzdarray.h 218: the int64_t size is converted to uint32_t. *)
Definition da_push (d : darray) (v : A) : res darray := da_insert d (wrap32 (d_size d)) v.

(** buzzdarray_remove, buzzdarray.c 137-161; second component: elements destroyed. *)
Definition da_remove (d : darray) (pos : Z) : res (darray * list A) :=
  if pos >=? d_size d then Ok (d, [])
  else
    a <- slot_addr d pos ;;
    x <- slot_read d a ;;
    b <- slot_addr d (pos + 1) ;;
    m <- slot_move (d_mem d) a b (Z.to_nat (d_size d - pos - 1)) ;;
    let s := d_size d - 1 in
    if (s >? 0) && (s <=? d_cap d / 2)
    then let c := d_cap d / 2 in
         m2 <- realloc m (wrap32 (c * d_esz d)) (d_esz d) ;;
         Ok (mkDa m2 s c (d_esz d), [x])
    else Ok (mkDa m s (d_cap d) (d_esz d), [x]).

(** buzzdarray_pop, buzzdarray.h 225. *)
Definition da_pop (d : darray) : res (darray * list A) := da_remove d (wrap32 (d_size d - 1)).

(** buzzdarray_foreach, buzzdarray.c 204-211: the elements, in order, passed to [fun]. *)
Fixpoint read_all (l : list (option A)) : res (list A) :=
  match l with
  | [] => Ok []
  | Some a :: t => r <- read_all t ;; Ok (a :: r)
  | None :: _ => UB
  end.
Definition da_foreach (d : darray) : res (list A) :=
  if (Z.to_nat (d_size d) <=? length (d_mem d))%nat
  then read_all (firstn (Z.to_nat (d_size d)) (d_mem d))
  else UB.

(** buzzdarray_clear, buzzdarray.c 166-180. *)
Definition da_clear (d : darray) (cap : Z) : res (darray * list A) :=
  gone <- da_foreach d ;;
  m <- realloc (d_mem d) (wrap32 (cap * d_esz d)) (d_esz d) ;;
  Ok (mkDa m 0 cap (d_esz d), gone).

(** buzzdarray_destroy, buzzdarray.c 77-85. *)
Definition da_destroy (d : darray) : res (list A) := da_foreach d.

(** buzzdarray_clone, buzzdarray.c 38-51 (capacity is uint32_t, the malloc size a 32-bit
    product, the memcpy size a 64-bit product). *)
Definition da_clone (d : darray) : res darray :=
  let c := if d_size d >? 0 then wrap32 (d_size d) else 1 in
  let n := slots_of (wrap32 (c * d_esz d)) (d_esz d) in
  let s := Z.to_nat (d_size d) in
  if ((s <=? n) && (s <=? length (d_mem d)))%nat
  then Ok (mkDa (firstn s (d_mem d) ++ repeat None (n - s)) (d_size d) c (d_esz d))
  else UB.

(** buzzdarray_frombuffer, buzzdarray.c 56-72, for a buffer made of the given elements. *)
Definition da_frombuffer (buf : list A) (esz : Z) : darray :=
  mkDa (map Some buf) (zlen buf) (zlen buf) esz.

(** buzzdarray_get, buzzdarray.h 179 (a raw pointer access: no bound check). *)
Definition da_get (d : darray) (pos : Z) : res A :=
  if pos <? 0 then UB else slot_read d (Z.to_nat pos).

(** buzzdarray_last, buzzdarray.h 194. *)
Definition da_last (d : darray) : res A := da_get d (d_size d - 1).

(** buzzdarray_find, buzzdarray.c 216-225. *)
Fixpoint find_from (cmp : A -> A -> Z) (x : A) (l : list (option A)) (i : Z) : res Z :=
  match l with
  | [] => Ok i
  | None :: _ => UB
  | Some a :: t => if cmp x a =? 0 then Ok i else find_from cmp x t (i + 1)
  end.
Definition da_find (cmp : A -> A -> Z) (d : darray) (x : A) : res Z :=
  if (Z.to_nat (d_size d) <=? length (d_mem d))%nat
  then find_from cmp x (firstn (Z.to_nat (d_size d)) (d_mem d)) 0
  else UB.

(** SWAP macro, buzzdarray.c 230: two slots exchange contents. *)
Definition slot_swap (d : darray) (i j : Z) : res darray :=
  x <- da_get d i ;;
  y <- da_get d j ;;
  d1 <- slot_write d (Z.to_nat i) y ;;
  slot_write d1 (Z.to_nat j) x.

(** The loop of buzzdarray_part, buzzdarray.c 240-246: [n] iterations from [k]. *)
Fixpoint part_loop (cmp : A -> A -> Z) (n : nat) (d : darray) (k pt hi : Z) : res (darray * Z) :=
  match n with
  | O => Ok (d, pt)
  | S m =>
    a <- da_get d k ;;
    p <- da_get d hi ;;
    if cmp a p <? 0
    then d1 <- (if k =? pt then Ok d else slot_swap d k pt) ;;
         part_loop cmp m d1 (k + 1) (pt + 1) hi
    else part_loop cmp m d (k + 1) pt hi
  end.

(** buzzdarray_part, buzzdarray.c 232-251 (result converted to uint32_t). *)
Definition da_part (cmp : A -> A -> Z) (d : darray) (lo hi : Z) : res (darray * Z) :=
  '(d1, pt) <- part_loop cmp (Z.to_nat (hi - lo)) d lo lo hi ;;
  d2 <- slot_swap d1 pt hi ;;
  Ok (d2, wrap32 pt).

(** buzzdarray_qsort, buzzdarray.c 253-262. *)
Fixpoint da_qsort (fuel : nat) (cmp : A -> A -> Z) (d : darray) (lo hi : Z) : res darray :=
  match fuel with
  | O => Hang
  | S f =>
    if lo <? hi
    then '(d1, p) <- da_part cmp d lo hi ;;
         d2 <- da_qsort f cmp d1 lo (p - 1) ;;
         da_qsort f cmp d2 (p + 1) hi
    else Ok d
  end.

(** buzzdarray_sort, buzzdarray.c 264-267. *)
Definition da_sort (cmp : A -> A -> Z) (d : darray) : res darray :=
  da_qsort (S (Z.to_nat (d_size d))) cmp d 0 (d_size d - 1).

End Darray.
Arguments darray A : clear implicits.
Arguments mkDa {A}.
