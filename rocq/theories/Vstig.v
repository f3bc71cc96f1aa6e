(** Model of src/buzz/buzzvstig.c (virtual stigmergy) and of the stigmergy cases of
    buzzvm_process_inmsgs.  Stigmergy ids, timestamps and robot ids are uint16_t values.

    Simplifications: a value stored in a stigmergy is the object given by the caller (the
    clones made at 74-81 are equal to their source, C20).  A conflict manager is a function
    from the key, the local and the remote entry to the fields of the table it returns ([None]
    when the result is not such a table); other effects the closure may have on the virtual
    machine are not modelled.  Calls of the conflict-lost manager are outputs of the model. *)
From Verif Require Import Base Dict PDict Strman Obj OutMsg.

(** struct buzzvstig_s, buzzvstig.h 24-32: the entries and the two optional closures (of the
    second one only its presence). *)
Definition manager := obj -> velem -> velem -> option (obj * Z).
Record vstig := { vs_data : pdict obj velem; vs_oc : option manager; vs_ocl : bool }.

(** The fields of the virtual machine in use here: vm->robot, vm->vstigs, vm->outmsgs. *)
Record vstate := { st_robot : Z; st_vstigs : pdict Z vstig; st_out : oq }.

(** buzzvm_new, buzzvm.c 553-563. *)
Definition vst_new (robot : Z) : vstate :=
  {| st_robot := robot; st_vstigs := pnew 10; st_out := oq_new |}.

(** buzzvstig_new, buzzvstig.c 93-105. *)
Definition vstig_new : vstig := {| vs_data := pnew 10; vs_oc := None; vs_ocl := false |}.

Definition vfind (s : vstate) (id : Z) : option vstig := pget uintkeyhash intkeycmp (st_vstigs s) id.
Definition set_data (vs : vstig) (d : pdict obj velem) : vstig :=
  {| vs_data := d; vs_oc := vs_oc vs; vs_ocl := vs_ocl vs |}.
(** A change of the stigmergy structure [id] through its pointer. *)
Definition vupd (s : vstate) (id : Z) (vs : vstig) : vstate :=
  {| st_robot := st_robot s;
     st_vstigs := pmodify uintkeyhash intkeycmp (st_vstigs s) id (fun _ => vs);
     st_out := st_out s |}.
Definition set_out (s : vstate) (q : oq) : vstate :=
  {| st_robot := st_robot s; st_vstigs := st_vstigs s; st_out := q |}.
(** buzzoutmsg_queue_append_vstig on the state. *)
Definition vsay (s : vstate) (put : bool) (id : Z) (k : obj) (e : velem) : res vstate :=
  q <- append_vstig (st_out s) put id k e ;; Ok (set_out s q).

(** buzzvstig_fetch, buzzvstig_store, buzzvstig_remove: buzzvstig.h 187-202. *)
Definition vfetch (vs : vstig) (k : obj) : res (option velem) := rget obj_hash obj_cmp (vs_data vs) k.
Definition vstore (s : vstate) (id : Z) (vs : vstig) (k : obj) (e : velem) : res vstate :=
  d <- rset obj_hash obj_cmp (vs_data vs) k e ;; Ok (vupd s id (set_data vs d)).
Definition vremove (s : vstate) (id : Z) (vs : vstig) (k : obj) : res vstate :=
  d <- rremove obj_hash obj_cmp (vs_data vs) k ;; Ok (vupd s id (set_data vs d)).
(** Writing to the fields of an entry through the pointer returned by buzzvstig_fetch: the
    entry keeps its place and its key. *)
Fixpoint rupd (k : obj) (v : velem) (l : list (obj * velem)) : res (list (obj * velem)) :=
  match l with
  | [] => Ok []
  | e :: t => c <- obj_cmp k (fst e) ;;
              if c =? 0 then Ok ((fst e, v) :: t) else t' <- rupd k v t ;; Ok (e :: t')
  end.
Definition voverwrite (s : vstate) (id : Z) (vs : vstig) (k : obj) (e : velem) : res vstate :=
  h <- rslot obj_hash (vs_data vs) k ;;
  l <- rupd k e (nth h (vs_data vs) []) ;;
  Ok (vupd s id (set_data vs (upd (vs_data vs) h l))).

Definition is_nil (o : obj) : bool := match o with ONil => true | _ => false end.

(** buzzvstig_create, buzzvstig.c 155-186 (the entries of an existing stigmergy are lost). *)
Definition vs_create (s : vstate) (id : Z) : vstate :=
  let d := match vfind s id with
           | Some _ => premove uintkeyhash intkeycmp (st_vstigs s) id
           | None => st_vstigs s
           end in
  {| st_robot := st_robot s; st_vstigs := pset uintkeyhash intkeycmp d id vstig_new; st_out := st_out s |}.

(** buzzvstig_put, buzzvstig.c 191-239. *)
Definition vs_put (s : vstate) (id : Z) (k v : obj) : res vstate :=
  match vfind s id with
  | None => Ok s
  | Some vs =>
      x <- vfetch vs k ;;
      match x with
      | Some e =>
          if negb (is_nil v) then
            let e' := {| ve_data := v; ve_ts := wrap16 (ve_ts e + 1); ve_robot := st_robot s |} in
            s1 <- voverwrite s id vs k e' ;;
            vsay s1 true id k e'
          else
            let y := {| ve_data := ONil; ve_ts := wrap16 (ve_ts e + 1); ve_robot := st_robot s |} in
            s1 <- vsay s true id k y ;;
            vremove s1 id vs k
      | None =>
          if negb (is_nil v) then
            let y := {| ve_data := v; ve_ts := 1; ve_robot := st_robot s |} in
            s1 <- vstore s id vs k y ;;
            vsay s1 true id k y
          else Ok s
      end
  end.

(** buzzvstig_size, buzzvstig.c 286-303. *)
Definition vs_size (s : vstate) (id : Z) : Z :=
  match vfind s id with Some vs => psize (vs_data vs) | None => 0 end.

(** buzzvstig_get, buzzvstig.c 308-345. *)
Definition vs_get (s : vstate) (id : Z) (k : obj) : res (vstate * obj) :=
  match vfind s id with
  | None => Ok (s, ONil)
  | Some vs =>
      x <- vfetch vs k ;;
      match x with
      | Some e => s1 <- vsay s false id k e ;; Ok (s1, ve_data e)
      | None =>
          s1 <- vsay s false id k {| ve_data := ONil; ve_ts := 0; ve_robot := st_robot s |} ;;
          Ok (s1, ONil)
      end
  end.

(** buzzvstig_onconflict and buzzvstig_onconflictlost, buzzvstig.c 350-401. *)
Definition vs_onconflict (s : vstate) (id : Z) (f : manager) : vstate :=
  match vfind s id with
  | Some vs => vupd s id {| vs_data := vs_data vs; vs_oc := Some f; vs_ocl := vs_ocl vs |}
  | None => s
  end.
Definition vs_onconflictlost (s : vstate) (id : Z) : vstate :=
  match vfind s id with
  | Some vs => vupd s id {| vs_data := vs_data vs; vs_oc := vs_oc vs; vs_ocl := true |}
  | None => s
  end.

(** buzzvstig_onconflict_call, buzzvstig.c 406-471. *)
Definition resolve (vs : vstig) (k : obj) (lv rv : velem) : option velem :=
  match vs_oc vs with
  | Some f =>
      match f k lv rv with
      | Some (data, robot) => Some {| ve_data := data; ve_ts := ve_ts lv; ve_robot := wrap16 robot |}
      | None => None
      end
  | None =>
      if (is_nil (ve_data lv) && is_nil (ve_data rv)) || (negb (is_nil (ve_data lv)) && negb (is_nil (ve_data rv))) then
        if ve_robot lv >? ve_robot rv then Some lv else Some rv
      else if negb (is_nil (ve_data lv)) then Some lv
      else if negb (is_nil (ve_data rv)) then Some rv
      else None
  end.

(** A call of the conflict-lost manager: stigmergy, key and lost entry (buzzvstig.c 476-495). *)
Definition lost := (Z * obj * velem)%type.

(** The conflict branch shared by both kinds of messages, buzzvm.c 308-336 and 400-427. *)
Definition vconflict (s : vstate) (id : Z) (vs : vstig) (k : obj) (l v : velem)
  : res (vstate * list lost) :=
  match resolve vs k l v with
  | None => Ok (s, [])
  | Some c =>
      let loses := negb (ve_robot c =? st_robot s) && (ve_robot l =? st_robot s) in
      s1 <- vstore s id vs k c ;;
      s2 <- vsay s1 true id k c ;;
      Ok (s2, if loses && vs_ocl vs then [(id, k, l)] else [])
  end.

(** BUZZMSG_VSTIG_PUT, buzzvm.c 276-343, on a well-formed message. *)
Definition recv_put (s : vstate) (id : Z) (k : obj) (v : velem) : res (vstate * list lost) :=
  match vfind s id with
  | None => Ok (s, [])
  | Some vs =>
      x <- vfetch vs k ;;
      let accept := s1 <- vstore s id vs k v ;; s2 <- vsay s1 true id k v ;; Ok (s2, []) in
      match x with
      | None => accept
      | Some l =>
          if ve_ts l <? ve_ts v then accept
          else if (ve_ts l =? ve_ts v) && negb (ve_robot l =? ve_robot v) then vconflict s id vs k l v
          else Ok (s, [])
      end
  end.

(** BUZZMSG_VSTIG_QUERY, buzzvm.c 344-432, on a well-formed message. *)
Definition recv_query (s : vstate) (id : Z) (k : obj) (v : velem) : res (vstate * list lost) :=
  match vfind s id with
  | None => s1 <- vsay s false id k v ;; Ok (s1, [])
  | Some vs =>
      x <- vfetch vs k ;;
      let accept := s1 <- vstore s id vs k v ;; s2 <- vsay s1 true id k v ;; Ok (s2, []) in
      match x with
      | None =>
          if is_nil (ve_data v) then s1 <- vsay s false id k v ;; Ok (s1, []) else accept
      | Some l =>
          if ve_ts l <? ve_ts v then accept
          else if ve_ts l >? ve_ts v then s1 <- vsay s true id k l ;; Ok (s1, [])
          else if (ve_ts l =? ve_ts v) && negb (ve_robot l =? ve_robot v) then vconflict s id vs k l v
          else Ok (s, [])
      end
  end.
Definition vrecv (s : vstate) (m : omsg) : res (vstate * list lost) :=
  match m with
  | MPut id k v => recv_put s id k v
  | MQuery id k v => recv_query s id k v
  | _ => Ok (s, [])
  end.

(** Histories of one robot: calls of the script, received messages, and rounds of
    buzzoutmsg_queue_first and buzzoutmsg_queue_next. *)
Inductive vop :=
| VCreate (id : Z)
| VPut (id : Z) (k v : obj)
| VGet (id : Z) (k : obj)
| VSize (id : Z)
| VOnConflict (id : Z) (f : manager)
| VOnLost (id : Z)
| VRecv (m : omsg)
| VSend.
(** What an operation returns, reports or sends. *)
Inductive vout := RNone | RVal (o : obj) | RSize (n : Z) | RLost (l : list lost) | RSent (l : list omsg).
Definition vstep (s : vstate) (o : vop) : res (vstate * vout) :=
  match o with
  | VCreate id => Ok (vs_create s id, RNone)
  | VPut id k v => s' <- vs_put s id k v ;; Ok (s', RNone)
  | VGet id k => '(s', v) <- vs_get s id k ;; Ok (s', RVal v)
  | VSize id => Ok (s, RSize (vs_size s id))
  | VOnConflict id f => Ok (vs_onconflict s id f, RNone)
  | VOnLost id => Ok (vs_onconflictlost s id, RNone)
  | VRecv m => '(s', l) <- vrecv s m ;; Ok (s', RLost l)
  | VSend => '(q, l) <- oq_step (st_out s) OSend ;; Ok (set_out s q, RSent l)
  end.
Fixpoint vrun (s : vstate) (ops : list vop) : res (vstate * list vout) :=
  match ops with
  | [] => Ok (s, [])
  | o :: t => '(s1, r) <- vstep s o ;; '(s2, rs) <- vrun s1 t ;; Ok (s2, r :: rs)
  end.
