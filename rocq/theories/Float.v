(** Binary32 arithmetic: C's float, evaluated in single precision with round-to-nearest-even
    (FLT_EVAL_METHOD 0), through the standard library's executable specification
    Coq.Floats.SpecFloat (24-bit significand, maximal exponent 128). *)
From Coq Require Export Floats.SpecFloat.
From Verif Require Import Base.

Definition f32 := spec_float.
Definition fprec : Z := 24.
Definition femax : Z := 128.

Definition fadd : f32 -> f32 -> f32 := SFadd fprec femax.
Definition fsub : f32 -> f32 -> f32 := SFsub fprec femax.
Definition fmul : f32 -> f32 -> f32 := SFmul fprec femax.
Definition fdiv : f32 -> f32 -> f32 := SFdiv fprec femax.
Definition fneg : f32 -> f32 := SFopp.
Definition fabs : f32 -> f32 := SFabs.
Definition flt : f32 -> f32 -> bool := SFltb.
Definition fgt (a b : f32) : bool := SFltb b a.
Definition feq : f32 -> f32 -> bool := SFeqb.
(** ldexpf. *)
Definition fldexp : f32 -> Z -> f32 := SFldexp fprec femax.
(** frexpf: for zero the exponent is 0 (ISO C 7.12.6.4); for infinities and NaN it is
    unspecified (any value would do; callers below only see it after a UB test). *)
Definition ffrexp (f : f32) : f32 * Z :=
  match f with S754_finite _ _ _ => SFfrexp fprec femax f | _ => (f, 0) end.

(** Conversion of an integer to float. *)
Definition f_of_Z (z : Z) : f32 := binary_normalize fprec femax z 0 false.

(** Integer part of a finite float (truncation towards zero). *)
Definition f_trunc (f : f32) : option Z :=
  match f with
  | S754_zero _ => Some 0
  | S754_finite s m e =>
      let a := if 0 <=? e then Zpos m * 2 ^ e else Zpos m / 2 ^ (- e) in
      Some (if s then - a else a)
  | _ => None
  end.
(** Conversion to int32_t: undefined when the truncated value does not fit. *)
Definition f_to_int32 (f : f32) : res Z :=
  match f_trunc f with
  | Some z => if int32_rangeb z then Ok z else UB
  | None => UB
  end.
(** Conversion to uint32_t: undefined outside the range. *)
Definition f_to_uint32 (f : f32) : res Z :=
  match f_trunc f with
  | Some z => if (0 <=? z) && (z <? 2 ^ 32) then Ok z else UB
  | None => UB
  end.

(** Datums a C float can hold. *)
Definition valid_f32 (f : f32) : bool := valid_binary fprec femax f.
Definition finite_f32 (f : f32) : bool :=
  match f with S754_zero _ | S754_finite _ _ _ => true | _ => false end.

Definition f_zero : f32 := S754_zero false.
Definition f_half : f32 := S754_finite false 8388608 (-24).
Definition f_two : f32 := S754_finite false 8388608 (-22).
