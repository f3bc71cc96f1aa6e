(** Model of the object codec of src/buzz/buzztype.c 518-629 (buzzobj_serialize and
    buzzobj_deserialize).

    The codec follows tables recursively, so here an object is a tree: a table carries its
    buckets.  [WClos native ref n]: n is the size of the activation record (its contents are
    not transmitted).  Deserialization registers strings with the receiver's string manager. *)
From Verif Require Import Base Float Dict PDict Strman Msg Obj.

Inductive wobj :=
| WNil
| WInt (z : Z)
| WFloat (f : f32)
| WStr (sid : Z) (s : str)
| WTab (buckets : list (list (wobj * wobj)))
| WClos (native : Z) (ref : Z) (nact : Z)
| WUser.

(** What hashing and comparison of a table key look at. *)
Definition key_of (w : wobj) : obj :=
  match w with
  | WNil => ONil
  | WInt z => OInt z
  | WFloat f => OFloat f
  | WStr sid s => OStr sid s
  | WTab _ => OTab 0
  | WClos n r _ => OClos (negb (n =? 0)) r []
  | WUser => OUser 0
  end.
Definition whash (k : wobj) : res Z := table_hash (key_of k).
Definition wcmp (a b : wobj) : res Z := obj_cmp (key_of a) (key_of b).

Definition wtype (w : wobj) : Z :=
  match w with
  | WNil => T_NIL | WInt _ => T_INT | WFloat _ => T_FLOAT | WStr _ _ => T_STRING
  | WTab _ => T_TABLE | WClos _ _ _ => T_CLOSURE | WUser => T_USERDATA
  end.

(** buzzobj_serialize, buzztype.c 518-569.  The size of a table is its number of entries,
    transmitted as one byte.  A closure whose activation record does not have exactly one
    element and a userdata leave only the type byte (a message goes to stderr). *)
Fixpoint obj_ser (buf : payload) (w : wobj) : res payload :=
  let buf := ser_u8 buf (wtype w) in
  match w with
  | WNil => Ok buf
  | WInt z => Ok (ser_u32 buf z)
  | WFloat f => ser_float buf f
  | WStr _ s => Ok (ser_string buf s)
  | WTab bs =>
      let buf := ser_u8 buf (psize bs) in
      (fix go_buckets (bs : list (list (wobj * wobj))) (buf : payload) : res payload :=
         match bs with
         | [] => Ok buf
         | b :: t =>
             buf1 <- (fix go_chain (l : list (wobj * wobj)) (buf : payload) : res payload :=
                        match l with
                        | [] => Ok buf
                        | (k, v) :: l' =>
                            b1 <- obj_ser buf k ;; b2 <- obj_ser b1 v ;; go_chain l' b2
                        end) b buf ;;
             go_buckets t buf1
         end) bs buf
  | WClos n r nact =>
      if nact =? 1 then Ok (ser_u32 (ser_u8 buf n) r) else Ok buf
  | WUser => Ok buf
  end.

(** Registration of a received string, buzztype.c 596-600: the characters stored in the object
    are those the manager returns for the id. *)
Definition reg_string (sm : strman) (s : str) : res (wobj * strman) :=
  '(sm', id) <- sm_register sm_fuel sm s false ;;
  match sm_get sm' id with
  | Some t => Ok (WStr id t, sm')
  | None => UB
  end.

(** buzzobj_deserialize, buzztype.c 574-629: the object, the new position and the string
    manager; [None] stands for -1 (together with the string manager, which may have grown).
    Types above 6 read buzztype_desc out of bounds (line 626). *)
Fixpoint obj_deser (fuel : nat) (buf : payload) (pos : Z) (sm : strman)
  : res (option (wobj * Z) * strman) :=
  match fuel with
  | O => Hang
  | S f =>
    r <- de_u8 buf pos ;;
    match r with
    | None => Ok (None, sm)
    | Some (ty, p) =>
      if ty =? T_NIL then Ok (Some (WNil, p), sm)
      else if ty =? T_INT then
        r <- de_u32 buf p ;;
        match r with
        | None => Ok (None, sm)
        | Some (z, p') => Ok (Some (WInt (sign32 z), p'), sm)
        end
      else if ty =? T_FLOAT then
        r <- de_float buf p ;;
        match r with
        | None => Ok (None, sm)
        | Some (x, p') => Ok (Some (WFloat x, p'), sm)
        end
      else if ty =? T_STRING then
        r <- de_string buf p ;;
        match r with
        | None => Ok (None, sm)
        | Some (s, p') => '(w, sm') <- reg_string sm s ;; Ok (Some (w, p'), sm')
        end
      else if ty =? T_TABLE then
        r <- de_u8 buf p ;;
        match r with
        | None => Ok (None, sm)
        | Some (size, p') =>
          (fix go (n : nat) (t : pdict wobj wobj) (p : Z) (sm : strman) {struct n}
             : res (option (wobj * Z) * strman) :=
             match n with
             | O => Ok (Some (WTab t, p), sm)
             | S n' =>
                 '(rk, sm1) <- obj_deser f buf p sm ;;
                 match rk with
                 | None => Ok (None, sm1)
                 | Some (k, p1) =>
                     '(rv, sm2) <- obj_deser f buf p1 sm1 ;;
                     match rv with
                     | None => Ok (None, sm2)
                     | Some (v, p2) => t' <- rset whash wcmp t k v ;; go n' t' p2 sm2
                     end
                 end
             end) (Z.to_nat size) (pnew 10) p' sm
        end
      else if ty =? T_CLOSURE then
        r <- de_u8 buf p ;;
        match r with
        | None => Ok (None, sm)
        | Some (n, p') =>
          r <- de_u32 buf p' ;;
          match r with
          | None => Ok (None, sm)
          | Some (ref, p'') => Ok (Some (WClos n (sign32 ref) 1, p''), sm)
          end
        end
      else if ty =? T_USERDATA then Ok (None, sm)
      else UB
    end
  end.

(** Enough fuel for a message: every nested object starts at a later byte. *)
Definition deser (buf : payload) (pos : Z) (sm : strman) : res (option (wobj * Z) * strman) :=
  obj_deser (S (length buf)) buf pos sm.
