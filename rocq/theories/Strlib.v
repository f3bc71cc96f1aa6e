(** Model of the string library, src/buzz/buzzstring.c, and of the macros C functions use to look
    at their parameters (buzzvm.h 850-890).

    A C function is called by buzzvm_call with an empty operand stack and its parameters in the
    local symbols (slot 0 is self).  Allocation succeeds. *)
From Verif Require Import Base Float Dict PDict Strman Obj Instr Vm Text.

Section Strlib.
Context {X : Type}.
Notation vm := (vm X).
Implicit Types v : vm.

(** buzzvm_lnum, buzzvm.h 858. *)
Definition lnum v : res Z :=
  match v_lsymts v with ls :: _ => Ok (zlen (ls_syms ls) - 1) | [] => UB end.
(** buzzvm_lnum_assert, buzzvm.h 868. *)
Definition lnum_assert v (n : Z) (k : res vm) : res vm :=
  m <- lnum v ;; if m =? n then k else Ok (err v E_LNUM).
(** buzzvm_string_register(vm, s, 0) followed by buzzvm_pushs. *)
Definition push_new_string v (s : str) : res vm :=
  '(sm, id) <- sm_register sm_fuel (v_str v) s false ;; Ok (vm_pushs (set_str v sm) id).
(** Reading the value of the string or int on top of the stack, after the type assertion. *)
Definition top_str v : res str := o <- stack_at v 1 ;; match o with OStr _ s => Ok s | _ => UB end.
Definition top_int v : res Z := o <- stack_at v 1 ;; match o with OInt i => Ok i | _ => UB end.

(** buzzstring_length, buzzstring.c 39-50. *)
Definition string_length v : res vm :=
  lnum_assert v 1 (
    v1 <- vm_lload v 1 ;;
    type_assert v1 1 T_STRING (
      s <- top_str v1 ;; vm_ret1 (push v1 (OInt (sign32 (zlen s)))))).

(** Copying len characters from position n of s (lines 95-98); reading before the string is
    undefined. *)
Definition sub_chars (s : str) (n m : Z) : res str :=
  if n <? 0 then UB else Ok (firstn (Z.to_nat (m - n)) (skipn (Z.to_nat n) s)).
(** buzzstring_sub, buzzstring.c 55-102. *)
Definition string_sub v : res vm :=
  k <- lnum v ;;
  if negb (k =? 2) && negb (k =? 3) then Ok (err v E_LNUM) else
  v1 <- vm_lload v 1 ;;
  type_assert v1 1 T_STRING (
    s <- top_str v1 ;;
    let ls := sign32 (zlen s) in
    v2 <- vm_lload v1 2 ;;
    type_assert v2 1 T_INT (
      n <- top_int v2 ;;
      if ls <=? n then vm_ret1 (push v2 ONil)
      else
        let finish v3 m := s2 <- sub_chars s n m ;; v4 <- push_new_string v3 s2 ;; vm_ret1 v4 in
        if k =? 3 then
          v3 <- vm_lload v2 3 ;;
          type_assert v3 1 T_INT (
            m <- top_int v3 ;;
            if m <? n then vm_ret1 (push v3 ONil)
            else finish v3 (if ls <=? m then ls else m))
        else finish v2 ls)).

(** The first loop of buzzstring_concat, buzzstring.c 118-122: load the parameters i .. i+n-1; then
    [k] with the total length. *)
Fixpoint concat_load v (n : nat) (i : Z) (len : Z) (k : vm -> Z -> res vm) : res vm :=
  match n with
  | O => k v len
  | S n' =>
      v1 <- vm_lload v i ;;
      type_assert v1 1 T_STRING (
        s <- top_str v1 ;; concat_load v1 n' (i + 1) (wrap32 (len + zlen s)) k)
  end.
(** The second loop, lines 128-132: the bytes copied, from the deepest parameter to the top. *)
Fixpoint concat_copy v (n : nat) : res str :=
  match n with
  | O => Ok []
  | S n' =>
      o <- stack_at v (Z.of_nat n) ;;
      match o with
      | OStr _ s => r <- concat_copy v n' ;; Ok (s ++ r)
      | _ => UB
      end
  end.
(** buzzstring_concat, buzzstring.c 107-139.  The copy goes beyond the buffer when the total length
    does not fit uint32_t. *)
Definition string_concat v : res vm :=
  k <- lnum v ;;
  if k <? 2 then Ok (err v E_LNUM) else
  concat_load v (Z.to_nat k) 1 0 (fun v1 len =>
    s <- concat_copy v1 (Z.to_nat k) ;;
    if zlen s =? len then v2 <- push_new_string v1 s ;; vm_ret1 v2 else UB).

(** printf("%f") of a float, and the float found in the storage of an object that is not a number
    (union buzzobj_u, buzztype.h 93-103). *)
Variable fmt_f : f32 -> str.
Variable as_float : obj -> f32.
(** buzzstring_tostring, buzzstring.c 144-166: after nil is pushed for other objects (line 154) the
    function goes on. *)
Definition string_tostring v : res vm :=
  lnum_assert v 1 (
    v1 <- vm_lload v 1 ;;
    o <- stack_at v1 1 ;;
    let v2 := match o with OInt _ | OFloat _ => v1 | _ => push v1 ONil end in
    t <- stack_at v2 1 ;;
    let txt := match t, o with
               | OInt _, OInt i => print_d i
               | _, OFloat f => fmt_f f
               | _, _ => fmt_f (as_float o)
               end in
    v3 <- push_new_string v2 txt ;; vm_ret1 v3).

(** buzzstring_toint, buzzstring.c 171-194: strtol sets errno and saturates when the number does not
    fit a long; the conversion to int32_t wraps. *)
Definition string_toint v : res vm :=
  lnum_assert v 1 (
    v1 <- vm_lload v 1 ;;
    type_assert v1 1 T_STRING (
      s <- top_str v1 ;;
      match parse_number s with
      | None => vm_ret1 (push v1 ONil)
      | Some (neg, a) =>
          let i := sign32 (strtol s) in
          let errno := if neg then 2 ^ 63 <? a else 2 ^ 63 <=? a in
          vm_ret1 (push v1 (if errno && (i =? 0) then ONil else OInt i))
      end)).

(** strtof: the value and whether errno was set; [None] when there is no number. *)
Variable strtof : str -> option (f32 * bool).
Definition is_zero (f : f32) : bool := match f with S754_zero _ => true | _ => false end.
(** buzzstring_tofloat, buzzstring.c 199-222. *)
Definition string_tofloat v : res vm :=
  lnum_assert v 1 (
    v1 <- vm_lload v 1 ;;
    type_assert v1 1 T_STRING (
      s <- top_str v1 ;;
      match strtof s with
      | None => vm_ret1 (push v1 ONil)
      | Some (f, errno) => vm_ret1 (push v1 (if errno && is_zero f then ONil else OFloat f))
      end)).
End Strlib.
