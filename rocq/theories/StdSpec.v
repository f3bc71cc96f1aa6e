(** The meaning of functions of the standard library written in C, for scripts: what a call gives and what it does to the state.
    The first argument is self. *)
From Coq Require Import String.
From Verif Require Import Base Float Dict PDict Strman Obj ObjSpec Instr Vm VmSpec Text TableLib TableLibSpec Mathlib Strlib Source HostSpec.
Local Open Scope Z_scope.
Local Open Scope list_scope.

(** What the library takes from the C library: functions on floats, by their names in Buzz; atan2f; printf("%f"); strtof, with whether
    errno was set; the float in the storage of an object that is not a number. *)
Record clib := { c_real : string -> f32 -> f32; c_atan2 : f32 -> f32 -> f32; c_fmt : f32 -> str; c_strtof : str -> option (f32 * bool); c_storage : obj -> f32; c_cmp : list Z -> list Z -> Z }.

Section Std.
Variable c : clib.
Context {X : Type}.
Notation sst := (sst X).
Notation meaning := (list obj -> sst -> out (obj * sst)).
Implicit Types st : sst.
Definition one_arg (m : obj -> sst -> out (obj * sst)) : meaning := fun args st => match args with [_; x] => m x st | _ => Fail E_LNUM end.
Definition two_args (m : obj -> obj -> sst -> out (obj * sst)) : meaning := fun args st => match args with [_; x; y] => m x y st | _ => Fail E_LNUM end.
(** A function of a number that does not change the state. *)
Definition number (oni : Z -> out obj) (onf : f32 -> out obj) : meaning :=
  one_arg (fun x st => obind (match x with OInt i => oni i | OFloat f => onf f | _ => Fail E_TYPE end) (fun r => Done (r, st))).
(** An integer, when int can represent it; floats are given by their value times 2^149. *)
Definition int_if (z : Z) : out obj := if (- 2 ^ 31 <=? z) && (z <? 2 ^ 31) then Done (OInt z) else Unspec.
Definition float_val (g : Z -> Z) (f : f32) : out obj := if valid_f32 f && finite_f32 f then int_if (g (fval f)) else Unspec.
Definition size_of (x : obj) st : out (obj * sst) :=
  match x with
  | OTab a =>
      if a <? 0 then Unspec else
      match nth_error (s_heap st) (Z.to_nat a) with
      | Some t => if zlen (pentries t) <? 2 ^ 31 then Done (OInt (zlen (pentries t)), st) else Unspec
      | None => Unspec
      end
  | _ => Fail E_TYPE
  end.
Definition is_a (ty : string) : meaning := one_arg (fun x st => Done (OInt (if String.eqb (type_name x) ty then 1 else 0), st)).
Definition float_of (x : obj) : option f32 := match x with OFloat f => Some f | OInt i => Some (f_of_Z i) | _ => None end.
Definition atan : meaning := two_args (fun y x st => match float_of y, float_of x with Some a, Some b => Done (OFloat (c_atan2 c a b), st) | _, _ => Fail E_TYPE end).
Definition tostring : meaning := one_arg (fun x st => match x with OInt i => new_string st (print_d i) | OFloat f => new_string st (c_fmt c f) | _ => Unspec end).
Definition toint : meaning := one_arg (fun x st =>
  match x with
  | OStr _ t => match parse_number t with None => Done (ONil, st) | Some (neg, a) => if a <? 2 ^ 31 then Done (OInt (if neg then - a else a), st) else Unspec end
  | _ => Fail E_TYPE
  end).
Definition tofloat : meaning := one_arg (fun x st =>
  match x with
  | OStr _ t => match c_strtof c t with None => Done (ONil, st) | Some (f, erange) => if erange then Unspec else Done (OFloat f, st) end
  | _ => Fail E_TYPE
  end).
(** The smaller or larger of two objects, in the order of buzzobj_cmp. *)
Definition pick (first : Z -> bool) : meaning :=
  two_args (fun x y st => match obj_cmp_by (c_cmp c) x y with Ok c => Done (if first c then x else y, st) | _ => Unspec end).

Definition std_meanings : list (string * meaning) :=
  [ ("buzzstring_length"%string, string_cfun 0); ("buzzstring_sub"%string, string_cfun 1); ("buzzstring_concat"%string, string_cfun 2);
    ("buzzstring_tostring"%string, tostring); ("buzzstring_toint"%string, toint); ("buzzstring_tofloat"%string, tofloat); ("buzzmath_atan"%string, atan);
    ("buzzobj_size"%string, one_arg size_of);
    ("buzzobj_type"%string, one_arg (fun x st => new_string st (bs (type_name x))));
    ("buzzobj_int"%string, one_arg (fun x st => match x with OFloat f => obind (float_val (fun u => Z.quot u (2 ^ 149)) f) (fun r => Done (r, st)) | _ => Fail E_TYPE end));
    ("buzzobj_float"%string, one_arg (fun x st => match x with OInt i => Done (OFloat (f_of_Z i), st) | _ => Fail E_TYPE end));
    ("buzzobj_closure_isnil"%string, is_a "nil"%string); ("buzzobj_closure_isint"%string, is_a "integer"%string); ("buzzobj_closure_isfloat"%string, is_a "float"%string); ("buzzobj_closure_isstring"%string, is_a "string"%string);
    ("buzzobj_closure_istable"%string, is_a "table"%string); ("buzzobj_closure_isclosure"%string, is_a "closure"%string); ("buzzobj_closure_isuserdata"%string, is_a "userdata"%string);
    ("buzzmath_abs"%string, number (fun i => if i =? - 2 ^ 31 then Unspec else Done (OInt (Z.abs i))) (fun f => Done (OFloat (fabs f))));
    ("buzzmath_floor"%string, number (fun i => Done (OInt i)) (float_val (fun u => u / 2 ^ 149)));
    ("buzzmath_ceil"%string, number (fun i => Done (OInt i)) (float_val (fun u => - (- u / 2 ^ 149))));
    ("buzzmath_round"%string, number (fun i => Done (OInt i)) (float_val (fun u => if u <? 0 then - ((2 * - u + 2 ^ 149) / 2 ^ 150) else (2 * u + 2 ^ 149) / 2 ^ 150)));
    ("buzzmath_min"%string, pick (fun c => negb (c =? 1))); ("buzzmath_max"%string, pick (fun c => 0 <=? c)) ]
  ++ map (fun n => (("buzzmath_" ++ n)%string, number (fun i => Done (OFloat (c_real c n (f_of_Z i)))) (fun f => Done (OFloat (c_real c n f)))))
       ["log"; "log2"; "log10"; "exp"; "sqrt"; "sin"; "cos"; "tan"; "asin"; "acos"]%string.

(** The meaning of C functions by their numbers. *)
Definition std_cfun (fid : string -> Z) (i : Z) : meaning := fun args st =>
  match find (fun e => fid (fst e) =? i) std_meanings with Some e => snd e args st | None => Unspec end.

(** The functions in C that they are the meaning of. *)
Definition std_list : list (string * (vm X -> res (vm X))) :=
  [ ("buzzstring_length", string_length); ("buzzstring_sub", string_sub); ("buzzstring_concat", string_concat);
    ("buzzstring_tostring", string_tostring (c_fmt c) (c_storage c)); ("buzzstring_toint", string_toint); ("buzzstring_tofloat", string_tofloat (c_strtof c)); ("buzzmath_atan", math_atan (c_atan2 c));
    ("buzzobj_size", obj_size); ("buzzobj_type", obj_type); ("buzzobj_int", obj_int); ("buzzobj_float", obj_float);
    ("buzzobj_closure_isnil", closure_is T_NIL); ("buzzobj_closure_isint", closure_is T_INT); ("buzzobj_closure_isfloat", closure_is T_FLOAT); ("buzzobj_closure_isstring", closure_is T_STRING);
    ("buzzobj_closure_istable", closure_is T_TABLE); ("buzzobj_closure_isclosure", closure_is T_CLOSURE); ("buzzobj_closure_isuserdata", closure_is T_USERDATA);
    ("buzzmath_abs", math_abs); ("buzzmath_floor", math_floor); ("buzzmath_ceil", math_ceil); ("buzzmath_round", math_round);
    ("buzzmath_min", math_min (c_cmp c)); ("buzzmath_max", math_max (c_cmp c)) ]%string
  ++ map (fun n => (("buzzmath_" ++ n)%string, math_real (c_real c n))) ["log"; "log2"; "log10"; "exp"; "sqrt"; "sin"; "cos"; "tan"; "asin"; "acos"]%string.
(** They are registered, under the numbers [fid]. *)
Definition std_registered (fid : string -> Z) (flist : list (vm X -> res (vm X))) : Prop :=
  forall n f, In (n, f) std_list -> 0 <= fid n < 2 ^ 31 /\ nth_error flist (Z.to_nat (fid n)) = Some f.
End Std.
