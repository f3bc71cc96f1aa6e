(** Model of src/buzz/buzzmsg.c: the primitive wire codec.

    A payload (dynamic array of bytes, refined to a list by C01) is the list of its bytes.
    A decoder returns the value and the new position; [None] stands for -1.  Positions are
    uint32_t parameters.  Reading outside the payload is [UB].
    Byte order of the host is a parameter [le] (true: little-endian). *)
From Verif Require Import Base Float.

Definition payload := list Z.
Definition is_byte (b : Z) : Prop := 0 <= b < 256.

(** buzzdarray_get(buf, pos, uint8_t), buzzdarray.h. *)
Definition byte_at (buf : payload) (pos : Z) : res Z :=
  if (0 <=? pos) && (pos <? zlen buf) then Ok (nth (Z.to_nat pos) buf 0) else UB.

(** Representation in memory of uint16_t and uint32_t objects. *)
Definition mem16 (le : bool) (x : Z) : list Z :=
  let l := [x mod 256; x / 256 mod 256] in if le then l else rev l.
Definition mem32 (le : bool) (x : Z) : list Z :=
  let l := [x mod 256; x / 256 mod 256; x / 65536 mod 256; x / 16777216 mod 256] in
  if le then l else rev l.
(** htons/ntohs and htonl/ntohl. *)
Definition swap16 (x : Z) : Z := (x mod 256) * 256 + x / 256 mod 256.
Definition swap32 (x : Z) : Z :=
  (x mod 256) * 16777216 + (x / 256 mod 256) * 65536 + (x / 65536 mod 256) * 256
  + x / 16777216 mod 256.
Definition hton16 (le : bool) (x : Z) : Z := if le then swap16 x else x.
Definition hton32 (le : bool) (x : Z) : Z := if le then swap32 x else x.

(** buzzmsg_serialize_u8, buzzmsg.c 16-19; buzzmsg_deserialize_u8, 24-30. *)
Definition ser_u8 (buf : payload) (x : Z) : payload := buf ++ [x mod 256].
Definition de_u8 (buf : payload) (pos : Z) : res (option (Z * Z)) :=
  if pos + 1 >? zlen buf then Ok None
  else b <- byte_at buf pos ;; Ok (Some (b, pos + 1)).

(** buzzmsg_serialize_u16, buzzmsg.c 35-40; buzzmsg_deserialize_u16, 45-54. *)
Definition ser_u16_h (le : bool) (buf : payload) (x : Z) : payload :=
  buf ++ mem16 le (hton16 le (wrap16 x)).
Definition de_u16_h (le : bool) (buf : payload) (pos : Z) : res (option (Z * Z)) :=
  if pos + 2 >? zlen buf then Ok None
  else b0 <- byte_at buf pos ;;
       b1 <- byte_at buf (pos + 1) ;;
       Ok (Some (hton16 le (wrap16 (b0 + b1 * 256)), pos + 2)).

(** buzzmsg_serialize_u32, buzzmsg.c 59-66; buzzmsg_deserialize_u32, 71-82.  (The shift by
    24 of a byte >= 128 is computed in int; it is taken to wrap, as gcc and clang define.) *)
Definition ser_u32_h (le : bool) (buf : payload) (x : Z) : payload :=
  buf ++ mem32 le (hton32 le (wrap32 x)).
Definition de_u32_h (le : bool) (buf : payload) (pos : Z) : res (option (Z * Z)) :=
  if pos + 4 >? zlen buf then Ok None
  else b0 <- byte_at buf pos ;;
       b1 <- byte_at buf (pos + 1) ;;
       b2 <- byte_at buf (pos + 2) ;;
       b3 <- byte_at buf (pos + 3) ;;
       Ok (Some (hton32 le (wrap32 (b0 + b1 * 256 + b2 * 65536 + b3 * 16777216)), pos + 4)).

(** The rest of the model is for little-endian hosts. *)
Definition ser_u16 := ser_u16_h true.
Definition de_u16 := de_u16_h true.
Definition ser_u32 := ser_u32_h true.
Definition de_u32 := de_u32_h true.

(** static int32_t MAX_MANTISSA, buzzmsg.c 11. *)
Definition MAX_MANTISSA : Z := 2147483646.

(** buzzmsg_serialize_float, buzzmsg.c 87-127: the mantissa and exponent. *)
Definition float_mant_exp (data : f32) : res (Z * Z) :=
  let '(nf0, exp) := ffrexp data in
  let nf := fsub (fabs nf0) f_half in
  if flt nf f_zero then Ok (0, exp)
  else
    i <- f_to_int32 (fmul (fmul nf f_two) (f_of_Z MAX_MANTISSA)) ;;
    let mant := i + 1 in
    if int32_rangeb mant then
      Ok (if flt data f_zero then - mant else mant, exp)
    else UB.
Definition ser_float (buf : payload) (data : f32) : res payload :=
  '(mant, exp) <- float_mant_exp data ;;
  Ok (ser_u32 (ser_u32 buf mant) exp).

(** buzzmsg_deserialize_float, buzzmsg.c 132-163.  abs(INT32_MIN) is undefined. *)
Definition float_of_mant_exp (mant exp : Z) : res f32 :=
  if mant =? 0 then Ok f_zero
  else if mant =? - 2 ^ 31 then UB
  else
    let d := fadd (fdiv (f_of_Z (Z.abs mant - 1)) (fmul f_two (f_of_Z MAX_MANTISSA))) f_half in
    let d := fldexp d exp in
    Ok (if mant <? 0 then fneg d else d).
Definition de_float (buf : payload) (pos : Z) : res (option (f32 * Z)) :=
  if pos + 8 >? zlen buf then Ok None
  else
    r1 <- de_u32 buf pos ;;
    match r1 with
    | None => UB   (* pos = (uint32_t)-1; not reached *)
    | Some (mant, pos1) =>
        r2 <- de_u32 buf pos1 ;;
        match r2 with
        | None => UB
        | Some (exp, pos2) =>
            f <- float_of_mant_exp (sign32 mant) (sign32 exp) ;; Ok (Some (f, pos2))
        end
    end.

(** buzzmsg_serialize_string, buzzmsg.c 168-181. *)
Definition ser_string (buf : payload) (s : list Z) : payload := ser_u16 buf (zlen s) ++ s.

(** A C string as stored: the bytes before the first NUL. *)
Fixpoint cstr (l : list Z) : list Z :=
  match l with [] => [] | b :: t => if b =? 0 then [] else b :: cstr t end.

(** buzzmsg_deserialize_string, buzzmsg.c 186-207.  pos + len is a 32-bit sum (line 196);
    the memcpy of line 200 reads len bytes from pos. *)
Definition read_bytes (buf : payload) (pos len : Z) : res (list Z) :=
  if (0 <=? pos) && (pos + len <=? zlen buf)
  then Ok (firstn (Z.to_nat len) (skipn (Z.to_nat pos) buf)) else UB.
Definition de_string (buf : payload) (pos : Z) : res (option (list Z * Z)) :=
  if pos + 2 >? zlen buf then Ok None
  else
    r <- de_u16 buf pos ;;
    match r with
    | None => UB
    | Some (len, pos1) =>
        if wrap32 (pos1 + len) >? zlen buf then Ok None
        else bs <- read_bytes buf pos1 len ;; Ok (Some (cstr bs, wrap32 (pos1 + len)))
    end.
