(** Model of the mathematical functions of the standard library and of the random number generator
    (src/buzz/buzzmath.c).

    rngstate is an array of int32_t (buzzvm.h 195); the model keeps the bit patterns as numbers from 0 to
    2^32 - 1.  unsigned long has 64 bits. *)
From Coq Require Import String.
From Verif Require Import Base Float Dict PDict Strman Obj Instr Vm Text Strlib.
Local Open Scope Z_scope.
Local Open Scope list_scope.

(** ** The generator *)
(** rngstate and rngidx, buzzvm.h 194-197. *)
Record mt := mkMt { mt_state : list Z; mt_idx : Z }.
(** buzzmath.c 11-16. *)
Definition MT_N : Z := 624.
Definition MT_M : Z := 397.
Definition MATRIX_A : Z := 2567483615.
Definition UPPER_MASK : Z := 2147483648.
Definition LOWER_MASK : Z := 2147483647.
Definition RNG_MAX : Z := 4294967295.

(** Reading an element of the array. *)
Definition word (st : list Z) (i : Z) : res Z :=
  if i <? 0 then UB else match nth_error st (Z.to_nat i) with Some w => Ok w | None => UB end.
(** Writing one. *)
Definition put_word (st : list Z) (i : Z) (w : Z) : res (list Z) :=
  if (i <? 0) || (zlen st <=? i) then UB else Ok (upd st (Z.to_nat i) w).

(** The loop of mt_setseed, buzzmath.c 25-29: [n] rounds are left.  The shift is one of an int32_t. *)
Definition asr30 (w : Z) : Z := wrap32 (Z.shiftr (sign32 w) 30).
Fixpoint seed_loop (n : nat) (i : Z) (st : list Z) : res (list Z) :=
  match n with
  | O => Ok st
  | S m =>
      p <- word st (i - 1) ;;
      st' <- put_word st i (wrap32 (1812433253 * Z.lxor p (asr30 p) + i)) ;;
      seed_loop m (i + 1) st'
  end.
(** mt_setseed, buzzmath.c 22-30. *)
Definition mt_setseed (r : mt) (seed : Z) : res mt :=
  st0 <- put_word (mt_state r) 0 (wrap32 seed) ;;
  st <- seed_loop 623 1 st0 ;;
  Ok (mkMt st MT_N).

(** One assignment of the generation, buzzmath.c 39-40, 43-44, 46-47: [j] is the index of the second word, [l] of
    the third. *)
Definition gen_word (st : list Z) (k j l : Z) : res (list Z) :=
  a <- word st k ;; b <- word st j ;; c <- word st l ;;
  let y := Z.lor (Z.land a UPPER_MASK) (Z.land b LOWER_MASK) in
  put_word st k (Z.lxor (Z.lxor c (Z.shiftr y 1)) (if Z.odd y then MATRIX_A else 0)).
(** The loops, buzzmath.c 38-41 and 42-45. *)
Fixpoint gen_loop (n : nat) (k off : Z) (st : list Z) : res (list Z) :=
  match n with
  | O => Ok st
  | S m => st' <- gen_word st k (k + 1) (k + off) ;; gen_loop m (k + 1) off st'
  end.
Definition generate (st : list Z) : res (list Z) :=
  st1 <- gen_loop 227 0 MT_M st ;;
  st2 <- gen_loop 396 227 (MT_M - MT_N) st1 ;;
  gen_word st2 (MT_N - 1) 0 (MT_M - 1).
(** Tempering, buzzmath.c 52-55. *)
Definition temper (y : Z) : Z :=
  let y := Z.lxor y (Z.shiftr y 11) in
  let y := Z.lxor y (Z.land (wrap32 (Z.shiftl y 7)) 2636928640) in
  let y := Z.lxor y (Z.land (wrap32 (Z.shiftl y 15)) 4022730752) in
  Z.lxor y (Z.shiftr y 18).
(** mt_uniform32, buzzmath.c 32-57. *)
Definition mt_uniform32 (r : mt) : res (Z * mt) :=
  r1 <- (if MT_N <=? mt_idx r then st <- generate (mt_state r) ;; Ok (mkMt st 0) else Ok r) ;;
  y <- word (mt_state r1) (mt_idx r1) ;;
  Ok (temper y, mkMt (mt_state r1) (wrap32 (mt_idx r1 + 1))).

(** ** The functions of math.rng *)
Section Rng.
Context {X : Type}.
Notation vm := (vm X).
Implicit Types v : vm.
(** The generator within the rest of the VM's state. *)
Variable getr : X -> mt.
Variable setr : X -> mt -> X.

Definition draw v : res (Z * vm) :=
  '(y, r) <- mt_uniform32 (getr (v_ext v)) ;; Ok (y, set_ext v (setr (v_ext v) r)).

(** buzzmath_rng_setseed, buzzmath.c 465-473. *)
Definition rng_setseed v : res vm :=
  lnum_assert v 1 (
    v1 <- vm_lload v 1 ;;
    type_assert v1 1 T_INT (
      s <- top_int v1 ;;
      r <- mt_setseed (getr (v_ext v1)) (wrap32 s) ;;
      vm_ret0 (set_ext v1 (setr (v_ext v1) r)))).

(** The expressions of buzzmath.c 505, 524 (integers) and 510, 530, 536, 542 (floats). *)
Definition scale_int (y d : Z) : Z := wrap64 (y * wrap64 d) / RNG_MAX.
Definition scale_float (y : Z) (d : f32) : f32 := fdiv (fmul (f_of_Z y) d) (f_of_Z RNG_MAX).
Definition uniform2 (y : Z) (a b : obj) : res obj :=
  match a, b with
  | OInt m, OInt n =>
      if int32_rangeb (n - m) then Ok (OInt (sign32 (wrap64 (scale_int y (n - m) + wrap64 m)))) else UB
  | OFloat m, OInt n => Ok (OFloat (fadd (scale_float y (fsub (f_of_Z n) m)) m))
  | OInt m, OFloat n => Ok (OFloat (fadd (scale_float y (fsub n (f_of_Z m))) (f_of_Z m)))
  | OFloat m, OFloat n => Ok (OFloat (fadd (scale_float y (fsub n m)) m))
  | _, _ => UB
  end.
Definition is_num (o : obj) : bool := match o with OInt _ | OFloat _ => true | _ => false end.
(** buzzmath_rng_uniform, buzzmath.c 478-566. *)
Definition rng_uniform v : res vm :=
  m <- lnum v ;;
  if m =? 0 then
    '(y, v1) <- draw v ;; vm_ret1 (push v1 (OInt (sign32 y)))
  else if m =? 1 then
    v1 <- vm_lload v 1 ;;
    mx <- stack_at v1 1 ;;
    match mx with
    | OInt n => '(y, v2) <- draw v1 ;; vm_ret1 (push v2 (OInt (sign32 (scale_int y n))))
    | OFloat f => '(y, v2) <- draw v1 ;; vm_ret1 (push v2 (OFloat (scale_float y f)))
    | _ => Ok (err v1 E_TYPE)
    end
  else if m =? 2 then
    v1 <- vm_lload v 1 ;;
    v2 <- vm_lload v1 2 ;;
    a <- stack_at v2 2 ;;
    b <- stack_at v2 1 ;;
    if is_num a && is_num b then
      '(y, v3) <- draw v2 ;; o <- uniform2 y a b ;; vm_ret1 (push v3 o)
    else Ok (err v2 E_TYPE)
  else Ok (err v E_LNUM).

(** The value of a number as float. *)
Definition to_float (o : obj) (k : f32 -> res vm) (e : res vm) : res vm :=
  match o with OFloat f => k f | OInt i => k (f_of_Z i) | _ => e end.
(** The loop and the result of buzzmath_rng_gaussian, buzzmath.c 625-632.  The float expressions are not modelled:
    [noise] gives n1 or n2 from a random number, [accept] tests the pair, [gauss] is the result. *)
Variable noise : Z -> f32.
Variable accept : f32 -> f32 -> bool.
Variable gauss : f32 -> f32 -> f32 -> f32 -> f32.
Fixpoint box_muller (fuel : nat) v : res (f32 * f32 * vm) :=
  match fuel with
  | O => Hang
  | S n =>
      '(y1, v1) <- draw v ;; '(y2, v2) <- draw v1 ;;
      if accept (noise y1) (noise y2) then Ok (noise y1, noise y2, v2) else box_muller n v2
  end.
Variable fuel : nat.
Definition gaussian_end v (stddev mean : f32) : res vm :=
  '(n1, n2, v1) <- box_muller fuel v ;; vm_ret1 (push v1 (OFloat (gauss mean stddev n1 n2))).
(** buzzmath_rng_gaussian, buzzmath.c 571-634.  Line 597 loads argument 1 again. *)
Definition rng_gaussian v : res vm :=
  m <- lnum v ;;
  if 0 <? m then
    v1 <- vm_lload v 1 ;;
    o <- stack_at v1 1 ;;
    to_float o (fun stddev =>
      if m =? 2 then
        v2 <- vm_lload v1 1 ;;
        o2 <- stack_at v2 1 ;;
        to_float o2 (fun mean => gaussian_end v2 stddev mean) (Ok (err v2 E_TYPE))
      else Ok (err v1 E_LNUM)) (Ok (err v1 E_TYPE))
  else gaussian_end v (f_of_Z 1) (f_of_Z 0).
(** buzzmath_rng_exponential, buzzmath.c 639-650: the argument is not loaded.  [expo] is the expression of line 648. *)
Variable expo : Z -> f32 -> f32.
Definition rng_exponential v : res vm :=
  lnum_assert v 1 (
    o <- stack_at v 1 ;;
    to_float o (fun mean => '(y, v1) <- draw v ;; vm_ret1 (push v1 (OFloat (expo y mean)))) (Ok (err v E_TYPE))).
End Rng.

(** ** The functions of math *)
Section Math.
Context {X : Type}.
Notation vm := (vm X).
Implicit Types v : vm.

(** floor(), ceil() and round() of a float; the result is converted to int32_t by the call of buzzvm_pushi, which
    is undefined when it does not fit. *)
Definition f_floor (f : f32) : option Z :=
  match f with
  | S754_zero _ => Some 0
  | S754_finite s m e =>
      let a := if s then Zneg m else Zpos m in Some (if 0 <=? e then a * 2 ^ e else a / 2 ^ (- e))
  | _ => None
  end.
Definition f_ceil (f : f32) : option Z := option_map Z.opp (f_floor (fneg f)).
Definition f_round (f : f32) : option Z :=
  match f with
  | S754_zero _ => Some 0
  | S754_finite s m e =>
      let a := if 0 <=? e then Zpos m * 2 ^ e else (2 * Zpos m + 2 ^ (- e)) / 2 ^ (- e + 1) in
      Some (if s then - a else a)
  | _ => None
  end.
Definition fits (z : option Z) : res Z :=
  match z with Some z => if int32_rangeb z then Ok z else UB | None => UB end.

(** The shape of the functions of one argument, e.g. buzzmath.c 146-156. *)
Definition one_number (v : vm) (onf : f32 -> res obj) (oni : Z -> res obj) : res vm :=
  lnum_assert v 1 (
    v1 <- vm_lload v 1 ;;
    o <- stack_at v1 1 ;;
    match o with
    | OFloat f => r <- onf f ;; vm_ret1 (push v1 r)
    | OInt i => r <- oni i ;; vm_ret1 (push v1 r)
    | _ => Ok (err v1 E_TYPE)
    end).
(** buzzmath_abs, buzzmath.c 146-156: abs(INT_MIN) is undefined. *)
Definition math_abs v : res vm :=
  one_number v (fun f => Ok (OFloat (fabs f))) (fun i => if i =? - 2 ^ 31 then UB else Ok (OInt (Z.abs i))).
(** buzzmath_floor, ceil, round, buzzmath.c 161-201. *)
Definition math_floor v : res vm := one_number v (fun f => z <- fits (f_floor f) ;; Ok (OInt z)) (fun i => Ok (OInt i)).
Definition math_ceil v : res vm := one_number v (fun f => z <- fits (f_ceil f) ;; Ok (OInt z)) (fun i => Ok (OInt i)).
Definition math_round v : res vm := one_number v (fun f => z <- fits (f_round f) ;; Ok (OInt z)) (fun i => Ok (OInt i)).
(** buzzmath_log ... buzzmath_acos, buzzmath.c 206-381; [fn] is the function of the C library. *)
Definition math_real (fn : f32 -> f32) v : res vm :=
  one_number v (fun f => Ok (OFloat (fn f))) (fun i => Ok (OFloat (fn (f_of_Z i)))).
(** buzzmath_atan, buzzmath.c 386-422; [fn] is atan2f. *)
Definition math_atan (fn : f32 -> f32 -> f32) v : res vm :=
  lnum_assert v 2 (
    v1 <- vm_lload v 1 ;;
    a <- stack_at v1 1 ;;
    to_float a (fun y =>
      v2 <- vm_lload v1 2 ;;
      b <- stack_at v2 1 ;;
      to_float b (fun x => vm_ret1 (push v2 (OFloat (fn y x)))) (Ok (err v2 E_TYPE))) (Ok (err v1 E_TYPE))).
(** buzzmath_min, max, buzzmath.c 427-460; [sc] is strcmp. *)
Definition math_pick (sc : list Z -> list Z -> Z) (first : Z -> bool) v : res vm :=
  lnum_assert v 2 (
    v1 <- vm_lload v 1 ;;
    a <- stack_at v1 1 ;;
    v2 <- vm_lload v1 2 ;;
    b <- stack_at v2 1 ;;
    c <- obj_cmp_by sc a b ;;
    vm_ret1 (push v2 (if first c then a else b))).
Definition math_min sc v : res vm := math_pick sc (fun c => negb (c =? 1)) v.
Definition math_max sc v : res vm := math_pick sc (fun c => 0 <=? c) v.
End Math.

(** The names registered in the table math, buzzmath.c 100-121. *)
Definition math_names : list str :=
  map bs ["abs"; "floor"; "ceil"; "round"; "log"; "log2"; "log10"; "exp"; "sqrt"; "sin"; "cos"; "tan"; "asin"; "acos"; "atan";
          "min"; "max"; "pi"; "rng"]%string.
